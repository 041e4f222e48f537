(** The queries of the database data sets against the specification: first rows
    of a group, distinct rows, extreme values, internal ids, apply. *)
From Coq Require Import String Ascii.
From Coq Require Import List ZArith QArith Qcanon Bool Permutation Lia Sorted.
From Verif Require Import Py PyFacts MemModel MemSpec MemFacts MemFacts3 DbModel DbFacts DbSpec DbFacts2 DbFacts3 DbFacts4
  DbFacts5 DbFacts7 DbFacts8 DbFacts9 DbFacts10 DbFacts11.
Import ListNotations.
Open Scope string_scope.
Open Scope Z_scope.

(** ** Cells of a column of a table *)

(** the cells of these columns are stored as SQLite stores them *)
Definition typed (cs : list string) (rows : list trow) : Prop :=
  forall c, In c cs -> exists t, forall row v, In row rows -> tcell row c = Some v -> affine t v = v.

Lemma Qc_of_Z_den z : Qden (this (Qc_of_Z z)) = xH.
Proof.
  unfold Qc_of_Z, Q2Qc. cbn [this]. unfold Qred, inject_Z.
  pose proof (Z.ggcd_gcd z 1) as G. pose proof (Z.ggcd_correct_divisors z 1) as D. cbn [Qnum Qden].
  destruct (Z.ggcd z 1) as [g [a b]] eqn:E. cbn [fst snd] in *. rewrite Z.gcd_1_r in G. subst g.
  destruct D as [_ D]. rewrite Z.mul_1_l in D. subst b. reflexivity.
Qed.
Lemma val_eqb_refl a : val_eqb a a = true.
Proof.
  destruct a; cbn [val_eqb]; [apply Z.eqb_refl| |apply String.eqb_refl]. cbn [num_of]. apply Qc_eq_bool_iff. auto.
Qed.
Lemma affine_eq t a b : affine t a = a -> affine t b = b -> val_eqb a b = true -> a = b.
Proof.
  assert (K : forall z q, affine DInt (VFlt q) = VFlt q -> Qc_eq_bool (Qc_of_Z z) q = true -> False).
  { intros z q A E. apply Qc_eq_bool_iff in E. subst q. cbn [affine] in A. unfold int_if_integral in A.
    rewrite Qc_of_Z_den in A. discriminate. }
  intros A B. destruct t; destruct a as [x|x|x]; destruct b as [y|y|y]; cbn [val_eqb num_of]; intro E; try discriminate.
  - apply Z.eqb_eq in E. congruence.
  - exfalso. eapply K; eauto.
  - exfalso. apply (K y x A). apply Qc_eq_bool_iff in E. apply Qc_eq_bool_iff. auto.
  - apply Qc_eq_bool_iff in E. congruence.
  - apply String.eqb_eq in E. congruence.
  - apply Qc_eq_bool_iff in E. congruence.
  - apply String.eqb_eq in E. congruence.
  - apply String.eqb_eq in E. congruence.
Qed.
Lemma cell_eqb_typed t a b : (forall v, a = Some v -> affine t v = v) -> (forall v, b = Some v -> affine t v = v) ->
  (cell_eqb a b = true <-> a = b).
Proof.
  intros A B. unfold cell_eqb, opt_eqb. destruct a as [x|]; destruct b as [y|]; split; intro H; try discriminate; auto.
  - f_equal. eapply affine_eq; eauto.
  - injection H as <-. apply val_eqb_refl.
Qed.
Lemma typed_cell cs rows c a b : typed cs rows -> In c cs -> In a rows -> In b rows ->
  (cell_eqb (tcell a c) (tcell b c) = true <-> tcell a c = tcell b c).
Proof. intros T I A B. destruct (T c I) as [t Ht]. apply (cell_eqb_typed t); intros v E; [exact (Ht a v A E)|exact (Ht b v B E)]. Qed.
Lemma typed_incl cs ds rows : typed ds rows -> incl cs ds -> typed cs rows.
Proof. intros T I c H. apply T. auto. Qed.
Lemma typed_group cs rows a b : typed cs rows -> In a rows -> In b rows ->
  (same_group cs a b = true <-> cells cs a = cells cs b).
Proof.
  intros T A B. unfold same_group, cells. rewrite forallb_forall. split.
  - intro H. apply map_ext_in. intros c Hc. apply (typed_cell cs rows); auto.
  - intros H c Hc. apply (typed_cell cs rows); auto.
    clear T. induction cs as [|d cs IH]; [contradiction|]. cbn [map] in H. injection H as H1 H2.
    destruct Hc as [->|Hc]; auto.
Qed.

(** ** First rows *)
Lemma min_rid_spec r l : (forall s, s = r \/ In s l -> min_rid r l <= rid_of s) /\
  exists s, (s = r \/ In s l) /\ min_rid r l = rid_of s.
Proof.
  unfold min_rid. rewrite <- fold_left_rev_right. rewrite <- map_rev.
  assert (X : forall l, (forall s, s = r \/ In s l -> fold_right (fun y x => Z.min x y) (rid_of r) (map rid_of l) <= rid_of s) /\
    exists s, (s = r \/ In s l) /\ fold_right (fun y x => Z.min x y) (rid_of r) (map rid_of l) = rid_of s).
  { clear l. induction l as [|a l [I1 (s & S1 & S2)]]; cbn [map fold_right].
    - split; [intros s [->|[]]; lia|exists r; auto].
    - split.
      + intros s' [->|[->|H]]; [specialize (I1 r (or_introl eq_refl)); lia|lia|specialize (I1 s' (or_intror H)); lia].
      + destruct (Z.min_spec (fold_right (fun y x => Z.min x y) (rid_of r) (map rid_of l)) (rid_of a)) as [[_ E]|[_ E]].
        * exists s. split; [destruct S1; cbn; auto|lia].
        * exists a. split; [cbn; auto|lia]. }
  destruct (X (rev l)) as [A (s & B & C)]. split.
  - intros s' H. apply A. rewrite <- in_rev. auto.
  - exists s. split; [rewrite in_rev; auto|auto].
Qed.
Lemma rid_inj rows a b : NoDup (map rid_of rows) -> In a rows -> In b rows -> rid_of a = rid_of b -> a = b.
Proof.
  induction rows as [|r rows IH]; [contradiction|]. cbn [map]. intros N A B E. inversion N as [|? ? H1 H2]; subst.
  destruct A as [->|A]; destruct B as [->|B]; auto.
  - exfalso. apply H1. rewrite E. apply in_map. auto.
  - exfalso. apply H1. rewrite <- E. apply in_map. auto.
Qed.
Lemma same_cells_iff cs a b : same_cells cs a b = true <-> cells cs a = cells cs b.
Proof. unfold same_cells. destruct (cells_dec (cells cs a) (cells cs b)); split; congruence. Qed.
Lemma firsts_spec cs rows : typed cs rows -> NoDup (map rid_of rows) -> firsts cs rows = filter (first_of_group cs rows) rows.
Proof.
  intros T N. unfold firsts. apply filter_ext_in. intros r Hr. apply eq_true_iff_eq.
  unfold first_of_group. rewrite negb_true_iff.
  rewrite (mem_b_In _ reflects_Z). unfold group_mins. rewrite in_map_iff.
  split.
  - intros (r' & E & Hr'). apply not_true_is_false. rewrite existsb_exists. intros (s & Hs & X).
    apply andb_prop in X. destruct X as [X1 X2]. apply same_cells_iff in X1. apply Z.ltb_lt in X2.
    destruct (min_rid_spec r' (filter (same_group cs r') rows)) as [M (m & Hm & Em)].
    assert (Im : In m rows) by (destruct Hm as [->|Hm]; [auto|apply filter_In in Hm; tauto]).
    assert (m = r) as -> by (apply (rid_inj rows); auto; congruence).
    assert (G : cells cs r' = cells cs r).
    { destruct Hm as [->|Hm]; [auto|]. apply filter_In in Hm. destruct Hm as [_ Hm]. apply (typed_group cs rows) in Hm; auto. }
    assert (rid_of r <= rid_of s); [|lia]. rewrite <- Em. apply M. right. apply filter_In. split; [auto|].
    apply (typed_group cs rows); auto. congruence.
  - intro X. exists r. split; [|auto].
    destruct (min_rid_spec r (filter (same_group cs r) rows)) as [M (m & Hm & Em)].
    destruct Hm as [->|Hm]; [auto|]. apply filter_In in Hm. destruct Hm as [Im Gm].
    apply (typed_group cs rows) in Gm; auto.
    destruct (Z.lt_ge_cases (rid_of m) (rid_of r)) as [L|L].
    + exfalso. apply not_true_iff_false in X. apply X. rewrite existsb_exists. exists m. split; [auto|].
      rewrite (proj2 (same_cells_iff cs m r)) by auto. apply Z.ltb_lt. auto.
    + specialize (M r (or_introl eq_refl)). lia.
Qed.
Lemma existsb_perm {A} (f : A -> bool) l l' : Permutation l l' -> existsb f l = existsb f l'.
Proof.
  intro P. apply eq_true_iff_eq. rewrite !existsb_exists.
  split; intros (x & H & E); exists x; (split; [|exact E]);
    [exact (Permutation_in x P H)|exact (Permutation_in x (Permutation_sym P) H)].
Qed.
Lemma forallb_perm {A} (f : A -> bool) l l' : Permutation l l' -> forallb f l = forallb f l'.
Proof.
  intro P. apply eq_true_iff_eq. rewrite !forallb_forall.
  split; intros H x I; apply H; [exact (Permutation_in x (Permutation_sym P) I)|exact (Permutation_in x P I)].
Qed.
Lemma filter_perm {A} (f : A -> bool) l l' : Permutation l l' -> Permutation (filter f l) (filter f l').
Proof.
  induction 1 as [|x l l' P IH|x y l|l1 l2 l3 P1 IH1 P2 IH2]; cbn [filter]; auto.
  - destruct (f x); auto.
  - destruct (f x); destruct (f y); auto. constructor.
  - eapply Permutation_trans; eauto.
Qed.
Lemma first_of_group_perm cs l l' : Permutation l l' -> Permutation (filter (first_of_group cs l) l) (filter (first_of_group cs l') l').
Proof.
  intro P. rewrite (filter_ext (first_of_group cs l) (first_of_group cs l')); [apply filter_perm; auto|].
  intro r. unfold first_of_group. rewrite (existsb_perm _ l l'); auto.
Qed.

(** ** Distinct rows *)
Definition cells_eqb (a b : list (option value)) : bool := if cells_dec a b then true else false.
Lemma reflects_cells : reflects cells_eqb.
Proof. intros a b. unfold cells_eqb. destruct (cells_dec a b); split; congruence. Qed.
Definition ovalue_eqb (a b : option value) : bool := if opt_value_dec a b then true else false.
Lemma reflects_ovalue : reflects ovalue_eqb.
Proof. intros a b. unfold ovalue_eqb. destruct (opt_value_dec a b); split; congruence. Qed.
Lemma dedup_acc_ext {A} (f g : A -> A -> bool) l : forall seen,
  (forall x y, In x l -> In y (seen ++ l)%list -> f x y = g x y) -> dedup_acc f seen l = dedup_acc g seen l.
Proof.
  induction l as [|x l IH]; intros seen H; cbn [dedup_acc]; [auto|].
  assert (E : mem_b f x seen = mem_b g x seen).
  { assert (K : forall y, In y seen -> f x y = g x y) by (intros y Hy; apply H; [left; auto|apply in_or_app; auto]).
    clear -K. induction seen as [|y s IH]; cbn [mem_b]; [auto|]. rewrite (K y (or_introl eq_refl)), IH; auto.
    intros z Hz. apply K. right. auto. }
  rewrite E. rewrite !IH; [reflexivity| |].
  - intros a b Ha Hb. apply H; [right; auto|]. destruct Hb as [<-|Hb]; apply in_or_app; [right; left; auto|].
    apply in_app_or in Hb. destruct Hb; [auto|right; right; auto].
  - intros a b Ha Hb. apply H; [right; auto|]. apply in_app_or in Hb. apply in_or_app. cbn. tauto.
Qed.
Lemma dedup_ext {A} (f g : A -> A -> bool) l : (forall x y, In x l -> In y l -> f x y = g x y) -> dedup f l = dedup g l.
Proof. intro H. apply dedup_acc_ext. cbn. auto. Qed.
Lemma length_same_set {A} (dec : forall a b : A, {a = b} + {a <> b}) (l m : list A) : NoDup l -> (forall x, In x l <-> In x m) ->
  length l = length (nodup dec m).
Proof.
  intros N H. apply Permutation_length, NoDup_Permutation; [auto|apply NoDup_nodup|]. intro x. rewrite nodup_In. apply H.
Qed.
Lemma distinct_count cs rows : typed cs rows ->
  length (dedup (list_eqb cell_eqb) (map (fun row => map (tcell row) cs) rows)) = length (nodup cells_dec (map (cells cs) rows)).
Proof.
  intros T. rewrite (dedup_ext (list_eqb cell_eqb) cells_eqb).
  - apply length_same_set; [apply dedup_NoDup, reflects_cells|]. intro x. apply dedup_In, reflects_cells.
  - intros x y Hx Hy. apply in_map_iff in Hx. apply in_map_iff in Hy.
    destruct Hx as (a & <- & Ha). destruct Hy as (b & <- & Hb).
    apply eq_true_iff_eq. rewrite (reflects_cells (map (tcell a) cs) (map (tcell b) cs)).
    rewrite <- (typed_group cs rows a b T Ha Hb). unfold same_group.
    assert (E : list_eqb cell_eqb (map (tcell a) cs) (map (tcell b) cs) = forallb (fun c => cell_eqb (tcell a c) (tcell b c)) cs).
    { clear. induction cs as [|c cs IH]; cbn [map list_eqb forallb]; [auto|]. rewrite IH. auto. }
    rewrite E. tauto.
Qed.
Lemma nodup_perm_length {A} (dec : forall a b : A, {a = b} + {a <> b}) (l m : list A) : Permutation l m ->
  length (nodup dec l) = length (nodup dec m).
Proof.
  intro P. apply length_same_set; [apply NoDup_nodup|]. intro x. rewrite nodup_In.
  split; apply Permutation_in; auto. apply Permutation_sym. auto.
Qed.

(** ** Extreme values *)
Lemma key_antisym a b : key_compare b a = CompOpp (key_compare a b).
Proof.
  destruct a; destruct b; cbn [key_compare]; auto; [apply Qccompare_antisym|apply String.compare_antisym].
Qed.
Lemma string_lt_trans : forall s t u, String.compare s t = Datatypes.Lt -> String.compare t u = Datatypes.Lt ->
  String.compare s u = Datatypes.Lt.
Proof.
  induction s as [|a s IH]; intros [|b t] [|c u]; cbn [String.compare]; try discriminate; auto.
  unfold Ascii.compare. intros H1 H2.
  destruct (N.compare_spec (N_of_ascii a) (N_of_ascii b)) as [E1|E1|E1]; [| |discriminate];
  destruct (N.compare_spec (N_of_ascii b) (N_of_ascii c)) as [E2|E2|E2]; try discriminate.
  - rewrite E1, E2, N.compare_refl. eapply IH; eauto.
  - rewrite E1. rewrite (proj2 (N.compare_lt_iff _ _)) by auto. auto.
  - rewrite <- E2. rewrite (proj2 (N.compare_lt_iff _ _)) by auto. auto.
  - rewrite (proj2 (N.compare_lt_iff _ _)) by lia. auto.
Qed.
Lemma key_lt_trans a b c : key_compare a b = Datatypes.Lt -> key_compare b c = Datatypes.Lt -> key_compare a c = Datatypes.Lt.
Proof.
  destruct a; destruct b; destruct c; cbn [key_compare]; try discriminate; auto.
  - rewrite <- !Qclt_alt. apply Qclt_trans.
  - apply string_lt_trans.
Qed.
Lemma key_dir_trans d a b c : d = Datatypes.Lt \/ d = Datatypes.Gt -> key_compare a b = d -> key_compare b c = d -> key_compare a c = d.
Proof.
  intros [->| ->] A B; [eapply key_lt_trans; eauto|].
  assert (K : key_compare c a = Datatypes.Lt).
  { apply key_lt_trans with b; rewrite key_antisym; [rewrite B|rewrite A]; reflexivity. }
  rewrite key_antisym, K. reflexivity.
Qed.
Lemma sql_ltb_key a b : sql_ltb a b = match key_compare (key_of a) (key_of b) with Datatypes.Lt => true | _ => false end.
Proof. change (sql_ltb a b) with (sql_op Lt a b). rewrite sql_op_key. destruct (key_compare _ _); reflexivity. Qed.

Lemma best_spec better d : d = Datatypes.Lt \/ d = Datatypes.Gt ->
  (forall a b, better a b = true <-> key_compare (key_of a) (key_of b) = d) ->
  forall l acc, match best better acc l with
    | None => acc = None /\ forall c, In c l -> c = None
    | Some v => (acc = Some v \/ In (Some v) l) /\
        forall v', (acc = Some v' \/ In (Some v') l) -> key_compare (key_of v') (key_of v) <> d
    end.
Proof.
  intros D Bt. assert (R : forall v, key_compare (key_of v) (key_of v) <> d).
  { intros v E. pose proof (key_antisym (key_of v) (key_of v)) as A. rewrite E in A. destruct D as [->| ->]; discriminate. }
  induction l as [|c l IH]; intro acc; cbn [best].
  - destruct acc as [v|]; [|split; [auto|intros c []]]. split; [auto|]. intros v' [E|[]]. injection E as <-. apply R.
  - destruct c as [v|].
    + set (acc' := match acc with None => Some v | Some a => if better v a then Some v else acc end).
      specialize (IH acc'). destruct (best better acc' l) as [m|].
      * destruct IH as [I1 I2]. split.
        -- destruct I1 as [I1|I1]; [|right; right; auto]. unfold acc' in I1. destruct acc as [a|].
           ++ destruct (better v a); [injection I1 as <-; right; left; auto|auto].
           ++ injection I1 as <-. right. left. auto.
        -- assert (Kv : key_compare (key_of v) (key_of m) <> d /\ forall a, acc = Some a -> key_compare (key_of a) (key_of m) <> d).
           { unfold acc' in *. destruct acc as [a|].
             - destruct (better v a) eqn:B.
               + apply Bt in B. pose proof (I2 v (or_introl eq_refl)) as Nv. split; [auto|].
                 intros a' E K. injection E as <-. apply Nv. eapply key_dir_trans; eauto.
               + pose proof (I2 a (or_introl eq_refl)) as Na. split; [|intros a' E; injection E as <-; auto].
                 intro K. destruct I1 as [I1|I1].
                 * injection I1 as <-. apply Bt in K. congruence.
                 * (* v beats m but not a, and m is not beaten by a: then a does not beat m, so compare *)
                   destruct (key_compare (key_of a) (key_of m)) eqn:Eam.
                   -- assert (Ea : key_of a = key_of m).
                      { destruct (key_of a); destruct (key_of m); cbn [key_compare] in Eam; try discriminate.
                        - apply Qceq_alt in Eam. congruence.
                        - apply String.compare_eq_iff in Eam. congruence. }
                      rewrite <- Ea in K. apply Bt in K. congruence.
                   -- destruct D as [->| ->]; [contradiction|].
                      assert (X : key_compare (key_of v) (key_of a) = Datatypes.Gt).
                      { eapply key_dir_trans; [auto|exact K|]. rewrite key_antisym, Eam. reflexivity. }
                      apply Bt in X. congruence.
                   -- destruct D as [->| ->]; [|contradiction].
                      assert (X : key_compare (key_of v) (key_of a) = Datatypes.Lt).
                      { eapply key_dir_trans; [auto|exact K|]. rewrite key_antisym, Eam. reflexivity. }
                      apply Bt in X. congruence.
             - split; [apply I2; auto|discriminate]. }
           destruct Kv as [Kv Ka]. intros v' [E|[E|E]]; [apply Ka; auto|injection E as <-; exact Kv|apply I2; auto].
      * exfalso. destruct IH as [I1 _]. unfold acc' in I1. destruct acc as [a|]; [destruct (better v a)|]; discriminate.
    + specialize (IH acc). destruct (best better acc l) as [m|].
      * destruct IH as [I1 I2]. split; [destruct I1; [auto|right; right; auto]|].
        intros v' [E|[E|E]]; [auto|discriminate|auto].
      * destruct IH as [I1 I2]. split; [auto|]. intros c [<-|H]; auto.
Qed.
Lemma extreme_best better d c rows : d = Datatypes.Lt \/ d = Datatypes.Gt ->
  (forall a b, better a b = true <-> key_compare (key_of a) (key_of b) = d) ->
  extreme d c rows (best better None (map (fun row => tcell row c) rows)).
Proof.
  intros D Bt. pose proof (best_spec better d D Bt (map (fun row => tcell row c) rows) None) as X. unfold extreme.
  destruct (best better None _) as [v|].
  - destruct X as [[X|X] Y]; [discriminate|]. split.
    + apply in_map_iff in X. destruct X as (row & E & H). eauto.
    + intros row v' H E. apply Y. right. rewrite <- E. apply (in_map (fun r => tcell r c)). auto.
  - intros row H. apply (proj2 X). apply (in_map (fun r => tcell r c)). auto.
Qed.
Lemma extreme_perm d c l l' o : Permutation l l' -> extreme d c l o -> extreme d c l' o.
Proof.
  intro P. unfold extreme. destruct o as [v|].
  - intros [(row & H & E) Y]. split; [exists row; split; [exact (Permutation_in row P H)|auto]|].
    intros r v' Hr. apply Y. exact (Permutation_in r (Permutation_sym P) Hr).
  - intros Y r Hr. apply Y. exact (Permutation_in r (Permutation_sym P) Hr).
Qed.
Lemma max_better a b : (fun a b => sql_ltb b a) a b = true <-> key_compare (key_of a) (key_of b) = Datatypes.Gt.
Proof. cbn beta. rewrite sql_ltb_key, (key_antisym (key_of a)). destruct (key_compare (key_of a) (key_of b)); cbn; split; congruence. Qed.
Lemma min_better a b : sql_ltb a b = true <-> key_compare (key_of a) (key_of b) = Datatypes.Lt.
Proof. rewrite sql_ltb_key. destruct (key_compare (key_of a) (key_of b)); split; congruence. Qed.

(** ** Internal ids *)
Lemma by_rid_sorted rows : StronglySorted (fun a b => rid_of a <= rid_of b) (by_rid rows).
Proof.
  unfold by_rid. assert (S : StronglySorted (fun a b => (rid_of a <=? rid_of b) = true) (sort_by (fun a b => rid_of a <=? rid_of b) rows)).
  { apply (sort_by_sorted (fun a b => rid_of a <=? rid_of b)).
    - intros a b. destruct (Z.leb_spec (rid_of a) (rid_of b)); [auto|right; apply Z.leb_le; lia].
    - intros a b c H1 H2. apply Z.leb_le in H1, H2. apply Z.leb_le. lia. }
  induction S as [|a l S IH F]; constructor; [auto|]. eapply Forall_impl; [|exact F]. intros b H. apply Z.leb_le. auto.
Qed.
Lemma SS_app {A} (R : A -> A -> Prop) l a m : StronglySorted R (l ++ a :: m) ->
  (forall x, In x l -> R x a) /\ (forall x, In x m -> R a x) .
Proof.
  induction l as [|b l IH]; cbn [app]; intro S; inversion S as [|? ? S' F]; subst.
  - split; [contradiction|]. rewrite Forall_forall in F. auto.
  - destruct (IH S') as [I1 I2]. split; [|auto]. intros x [->|H]; [|auto]. rewrite Forall_forall in F. apply F.
    apply in_or_app. right. left. auto.
Qed.
Lemma first_split (P : trow -> bool) (l : list trow) : existsb P l = true ->
  exists l1 a l2, l = (l1 ++ a :: l2)%list /\ P a = true /\ forall x, In x l1 -> P x = false.
Proof.
  induction l as [|x l IH]; cbn [existsb]; [discriminate|]. destruct (P x) eqn:E.
  - intros _. exists [], x, l. split; [auto|]. split; [auto|]. contradiction.
  - intro H. destruct (IH H) as (l1 & a & l2 & -> & Ha & Hl). exists (x :: l1), a, l2. split; [auto|]. split; [auto|].
    intros y [<-|Hy]; auto.
Qed.
Lemma index_of_ext {A} (f g : A -> A -> bool) x l : (forall y, In y l -> f x y = g x y) -> index_of f x l = index_of g x l.
Proof.
  induction l as [|y l IH]; cbn [index_of]; [auto|]. intro H. rewrite (H y (or_introl eq_refl)). rewrite IH; [auto|].
  intros z Hz. apply H. right. auto.
Qed.
Lemma cell_is_iff c v r : cell_is c v r = true <-> tcell r c = v.
Proof. unfold cell_is. destruct (opt_value_dec (tcell r c) v); split; congruence. Qed.
Lemma index_rank raw rows row v : typed [raw] rows -> NoDup (map rid_of rows) -> In row rows -> tcell row raw = Some v ->
  exists n, index_of cell_eqb (Some v) (distinct_raw raw rows) = Some n /\ Z.of_nat n = rank raw rows (Some v).
Proof.
  intros T N Hr Hv. pose proof (sort_by_perm (fun a b => rid_of a <=? rid_of b) rows) as P. fold (by_rid rows) in P.
  assert (Tc : forall x y, In x rows -> In y rows -> cell_eqb (tcell x raw) (tcell y raw) = ovalue_eqb (tcell x raw) (tcell y raw)).
  { intros x y Hx Hy. apply eq_true_iff_eq. rewrite (reflects_ovalue (tcell x raw) (tcell y raw)).
    apply (typed_cell [raw] rows); cbn; auto. }
  assert (Ib : forall x, In x (by_rid rows) <-> In x rows).
  { intro x. split; apply Permutation_in; auto. apply Permutation_sym. auto. }
  unfold distinct_raw. rewrite (dedup_ext cell_eqb ovalue_eqb).
  2:{ intros x y Hx Hy. apply in_map_iff in Hx. apply in_map_iff in Hy.
      destruct Hx as (a & <- & Ha). destruct Hy as (b & <- & Hb). apply Tc; apply Ib; auto. }
  rewrite (index_of_ext cell_eqb ovalue_eqb).
  2:{ intros y Hy. rewrite (dedup_In _ reflects_ovalue) in Hy. apply in_map_iff in Hy. destruct Hy as (b & <- & Hb).
      rewrite <- Hv. apply Tc; [auto|apply Ib; auto]. }
  destruct (first_split (cell_is raw (Some v)) (by_rid rows)) as (l1 & a & l2 & E & Ha & Hl1).
  { apply existsb_exists. exists row. split; [apply Ib; auto|apply cell_is_iff; auto]. }
  apply cell_is_iff in Ha. rewrite E, map_app. cbn [map]. rewrite Ha.
  rewrite (index_of_dedup_first _ reflects_ovalue).
  2:{ intro H. apply in_map_iff in H. destruct H as (x & Ex & Hx). apply Hl1 in Hx. apply cell_is_iff in Ex. congruence. }
  eexists. split; [reflexivity|]. unfold rank. f_equal.
  apply length_same_set; [apply dedup_NoDup, reflects_ovalue|]. intro x. rewrite (dedup_In _ reflects_ovalue).
  assert (Nb : NoDup (map rid_of (l1 ++ a :: l2))).
  { rewrite <- E. eapply Permutation_NoDup; [apply Permutation_map, P|auto]. }
  pose proof (by_rid_sorted rows) as S. rewrite E in S. destruct (SS_app _ _ _ _ S) as [S1 S2].
  assert (Sm : forall r, In r l1 <-> In r rows /\ before_all raw (Some v) rows r = true).
  { intro r. unfold before_all. rewrite forallb_forall. split.
    - intro H. assert (Hr' : In r rows) by (apply Ib; rewrite E; apply in_or_app; auto). split; [auto|].
      intros s Hs. destruct (cell_is raw (Some v) s) eqn:Es; [|auto]. cbn [negb orb]. apply Z.ltb_lt.
      assert (Ia : rid_of a <= rid_of s).
      { apply Ib in Hs. rewrite E in Hs. apply in_app_or in Hs. destruct Hs as [Hs|[<-|Hs]]; [apply Hl1 in Hs; congruence|lia|auto]. }
      specialize (S1 r H). assert (rid_of r <> rid_of a); [|lia]. intro K. rewrite map_app in Nb. cbn [map] in Nb.
      apply NoDup_remove_2 in Nb. apply Nb. apply in_or_app. left. rewrite <- K. apply in_map. auto.
    - intros [Hr' H]. assert (Ia : In a rows) by (apply Ib; rewrite E; apply in_or_app; right; left; auto).
      specialize (H a Ia). rewrite (proj2 (cell_is_iff raw (Some v) a)) in H by auto. cbn [negb orb] in H. apply Z.ltb_lt in H.
      apply Ib in Hr'. rewrite E in Hr'. apply in_app_or in Hr'. destruct Hr' as [K|[<-|K]]; [auto|lia|].
      specialize (S2 r K). lia. }
  rewrite !in_map_iff. split; intros (r & <- & H); exists r; (split; [auto|]).
  - apply filter_In. apply Sm. auto.
  - apply filter_In in H. apply Sm. auto.
Qed.
Lemma rank_ext c rows rows' v : Forall2 (fun r r' => rid_of r = rid_of r' /\ tcell r c = tcell r' c) rows rows' ->
  rank c rows v = rank c rows' v.
Proof.
  intro F. unfold rank. f_equal. f_equal. f_equal.
  assert (B : forall r r', rid_of r = rid_of r' -> before_all c v rows r = before_all c v rows' r').
  { intros r r' E. unfold before_all. induction F as [|a a' l l' [H1 H2] F IH]; cbn [forallb]; [auto|].
    rewrite IH. unfold cell_is. rewrite H1, H2, E. auto. }
  assert (G : forall f g, (forall r r', rid_of r = rid_of r' -> f r = g r') ->
     map (fun r => tcell r c) (filter f rows) = map (fun r => tcell r c) (filter g rows')).
  { intros f g Hf. clear B. induction F as [|a a' l l' [H1 H2] F IH]; cbn [filter map]; [auto|].
    rewrite (Hf a a' H1). destruct (g a'); cbn [map]; rewrite IH, ?H2; auto. }
  apply G. auto.
Qed.
Lemma rank_perm c l l' v : Permutation l l' -> rank c l v = rank c l' v.
Proof.
  intro P. unfold rank. f_equal. apply nodup_perm_length. apply Permutation_map.
  rewrite (filter_ext (before_all c v l) (before_all c v l')); [apply filter_perm; auto|].
  intro r. unfold before_all. apply forallb_perm. auto.
Qed.

Lemma mem_existsb c cs : in_cols c cs = existsb (String.eqb c) cs.
Proof. unfold in_cols. induction cs as [|d cs IH]; cbn [mem_b existsb]; [auto|]. rewrite IH. destruct (String.eqb c d); auto. Qed.
Lemma plus_rid_eq cs : with_rid cs = plus_rid cs.
Proof. unfold with_rid, plus_rid. rewrite mem_existsb. auto. Qed.
Lemma plus_eq c cs : add_col c cs = plus c cs.
Proof. unfold add_col, plus. rewrite mem_existsb. auto. Qed.
Lemma without_ids_eq cs : no_ids cs = without_ids cs.
Proof.
  unfold no_ids, without_ids. apply filter_ext. intro c. f_equal. rewrite mem_existsb. unfold idn. cbn [existsb].
  rewrite orb_false_r. auto.
Qed.
Lemma listed_eq rids keep row : ridp rids keep row = if keep then listed rids row else negb (listed rids row).
Proof.
  assert (E : mem_b Z.eqb (rid_of row) rids = listed rids row).
  { unfold listed. induction rids as [|d cs IH]; cbn [mem_b existsb]; [auto|]. rewrite IH. destruct (rid_of row =? d); auto. }
  unfold ridp. rewrite E. auto.
Qed.

Lemma number_row_set raw id rows row v : typed [raw] rows -> NoDup (map rid_of rows) -> In row rows -> In id (map fst row) ->
  tcell row raw = Some v -> tcell (number_row raw id (distinct_raw raw rows) row) id = Some (VInt (rank raw rows (Some v))).
Proof.
  intros T N H I V. destruct (index_rank raw rows row v T N H V) as (n & E & R). unfold number_row. rewrite V, E.
  rewrite tcell_set, String.eqb_refl. replace (mem_b String.eqb id (map fst row)) with true.
  - cbn [andb]. rewrite R. auto.
  - symmetry. apply (mem_b_In _ reflects_string). auto.
Qed.
Lemma number_rows_rid raw id rows : id <> "rid" -> map rid_of (number_rows raw id rows) = map rid_of rows.
Proof.
  intro N. unfold number_rows. rewrite map_map. apply map_ext. intro r. unfold rid_of. rewrite number_row_other; auto.
Qed.
Lemma numbered_ids cols rows den : den = map (proj cols) rows ->
  incl ["rid"; "user"; "item"] cols -> typed cols den -> NoDup (map rid_of rows) ->
  (forall row, In row rows -> In "uid" (map fst row) /\ In "iid" (map fst row)) ->
  no_null "user" den -> no_null "item" den ->
  map (proj (id_cols_of cols)) (numbered rows) = map (with_ids den (plus "iid" (plus "uid" cols))) den.
Proof.
  intros -> I T N K Nu Ni.
  assert (Iu : In "user" cols) by (apply I; cbn; auto). assert (Ii : In "item" cols) by (apply I; cbn; auto).
  assert (Ir : In "rid" cols) by (apply I; cbn; auto).
  assert (Ty : forall c, In c cols -> typed [c] rows).
  { intros c Hc d [<-|[]]. destruct (T c Hc) as [t Ht]. exists t. intros row v Hr E. apply (Ht (proj cols row)).
    - apply in_map. auto.
    - rewrite tcell_proj; auto. }
  set (rows1 := number_rows "user" "uid" rows).
  assert (N1 : NoDup (map rid_of rows1)) by (unfold rows1; rewrite number_rows_rid by discriminate; auto).
  assert (T1 : typed ["item"] rows1).
  { intros d [<-|[]]. destruct (Ty "item" Ii "item" (or_introl eq_refl)) as [t Ht]. exists t. intros row v Hr E.
    unfold rows1, number_rows in Hr. apply in_map_iff in Hr. destruct Hr as (r & <- & Hr).
    rewrite number_row_other in E by discriminate. exact (Ht r v Hr E). }
  assert (R1 : forall v, rank "item" rows1 v = rank "item" rows v).
  { intro v. apply rank_ext. unfold rows1, number_rows. generalize (distinct_raw "user" rows). intro ids. clear.
    induction rows as [|r l IH]; cbn [map]; constructor; auto. unfold rid_of. rewrite !number_row_other by discriminate. auto. }
  assert (R2 : forall c v, In c cols -> rank c (map (proj cols) rows) v = rank c rows v).
  { intros c v Hc. apply rank_ext. clear -Hc Ir. induction rows as [|r l IH]; cbn [map]; constructor; auto.
    rewrite rid_proj by auto. rewrite tcell_proj; auto. }
  unfold numbered. fold rows1. unfold number_rows at 1. unfold rows1 at 2. unfold number_rows. rewrite !map_map.
  apply map_ext_in. intros row Hr. unfold with_ids, id_cols_of. rewrite <- !plus_eq. unfold proj at 1. apply map_ext_in.
  intros c Hc. f_equal.
  assert (U : exists u, tcell row "user" = Some u).
  { specialize (Nu (proj cols row) (in_map _ _ _ Hr)). rewrite tcell_proj in Nu by auto. destruct (tcell row "user"); [eauto|contradiction]. }
  assert (V : exists v, tcell row "item" = Some v).
  { specialize (Ni (proj cols row) (in_map _ _ _ Hr)). rewrite tcell_proj in Ni by auto. destruct (tcell row "item"); [eauto|contradiction]. }
  destruct U as [u U]. destruct V as [v V]. rewrite !tcell_proj by auto. rewrite U, V, !R2 by auto.
  set (row1 := number_row "user" "uid" (distinct_raw "user" rows) row).
  assert (Hr1 : In row1 rows1) by (apply in_map; auto).
  destruct (K row Hr) as [K1 K2].
  destruct (String.eqb c "uid") eqn:Eu.
  - apply String.eqb_eq in Eu. subst c. rewrite number_row_other by discriminate.
    apply number_row_set; auto.
  - apply String.eqb_neq in Eu. destruct (String.eqb c "iid") eqn:Ei.
    + apply String.eqb_eq in Ei. subst c. rewrite <- R1. apply number_row_set; auto.
      * unfold row1. rewrite number_row_keys. auto.
      * unfold row1. rewrite number_row_other by discriminate. auto.
    + apply String.eqb_neq in Ei. rewrite number_row_other by auto. unfold row1. rewrite number_row_other by auto.
      rewrite tcell_proj; [auto|]. rewrite !add_col_in in Hc. destruct Hc as [?|[?|?]]; [contradiction|contradiction|auto].
Unshelve. all: exact (fun _ => 0%nat).
Qed.
Lemma with_ids_perm l l' cs row : Permutation l l' -> with_ids l cs row = with_ids l' cs row.
Proof.
  intro P. unfold with_ids. apply map_ext. intro c. rewrite (rank_perm "user" l l'), (rank_perm "item" l l'); auto.
Qed.

(** ** apply *)
Lemma affine_same v : affine (type_of v) v = v.
Proof. destruct v; reflexivity. Qed.
Lemma changed_mapped f c t row : NoDup (map fst row) -> (exists v v', tcell row c = Some v /\ f v = Ok v' /\ type_of v' = t) ->
  changed f c t row = mapped f c row.
Proof.
  intros N (v & v' & C & E & T). unfold changed. rewrite C. cbn [call]. rewrite E. subst t. rewrite affine_same.
  unfold set_tcell, mapped. apply map_ext_in. intros [d w] H. cbn [fst snd].
  destruct (String.eqb d c) eqn:D; [|auto]. apply String.eqb_eq in D. subst d.
  assert (W : w = Some v).
  { unfold tcell in C. rewrite (assoc_NoDup _ reflects_string row c w N H) in C. exact C. }
  subst w. rewrite E. auto.
Qed.
