(** matrix_split, random_split, schedule independence *)
From Coq Require Import String Ascii.
From Coq Require Import List ZArith QArith Qcanon Qround Bool Lia Permutation Sorted.
From Verif Require Import Py PyFacts MemModel MemSpec MemFacts MemFacts2 MemFacts3 MemFacts4 MemFacts5 MemFacts6 MemFacts7
  Conc ConcFacts SplitModel SplitSpec SplitFacts SplitFacts2 SplitFacts3.
Import ListNotations.
Open Scope string_scope.
Open Scope Z_scope.

(** ** Tasks only extend the two lists *)
Lemma lko_user_lists fmul sample a seed mu l f : (l < 2)%nat -> In f (updates cellv l (lko_user fmul sample a seed mu)) ->
  exists xs, f = extend xs.
Proof.
  intros Hl. unfold lko_user.
  repeat match goal with |- context [match ?x with _ => _ end] => destruct x end;
  destruct l as [|[|l]]; try lia; cbn; intros H; repeat (destruct H as [<-|H]; [eexists; reflexivity|]); try contradiction.
Qed.
Lemma lko_lists fmul sample a m ts : lko_tasks fmul sample a m = Ok ts -> lists_only ts.
Proof.
  intros E. destruct (lko_tasks_ok fmul sample a m ts E) as (us & _ & ->). intros l t f Hl Ht.
  apply in_map_iff in Ht. destruct Ht as (p & <- & _). unfold lko_task. destruct (user_rows m (snd p)); [|intros []].
  apply lko_user_lists; auto.
Qed.

Lemma updates_locks {A} l (xs : list A) : updates cellv l (map (fun _ => test_lock_only) xs) = [].
Proof. induction xs; simpl; auto. destruct (match l with 1%nat => true | _ => false end); destruct l as [|[|l]]; auto. Qed.

Lemma ms_user_lists mn ti tu u mu l f : (l < 2)%nat -> In f (updates cellv l (ms_user mn ti tu u mu)) -> exists xs, f = extend xs.
Proof.
  intros Hl. unfold ms_user. destruct (_ <? _).
  - destruct (rid_list mu); destruct l as [|[|l]]; try lia; cbn; intros H;
    repeat (destruct H as [<-|H]; [eexists; reflexivity|]); contradiction.
  - destruct (mem_b _ _ _).
    + destruct (rid_items mu); [|intros []]. rewrite !updates_app, updates_locks. cbn [app].
      rewrite in_app_iff. intros [H|H].
      * destruct (_ <? _)%nat; [|destruct H]. destruct l as [|[|l]]; try lia; cbn in H;
        repeat (destruct H as [<-|H]; [eexists; reflexivity|]); contradiction.
      * destruct l as [|[|l]]; try lia; cbn in H; contradiction.
    + destruct l as [|[|l]]; try lia; cbn; contradiction.
Qed.
Lemma ms_tasks_ok fmul su si a m ts : ms_tasks fmul su si a m = Ok ts -> exists us tu ti,
  ms_samples fmul su si a m = Ok (us, tu, ti) /\ ts = map (ms_task (b_min a) ti tu m) us.
Proof.
  unfold ms_tasks. destruct (ms_samples fmul su si a m) as [[[us tu] ti]|]; cbn [bind]; [|discriminate].
  intros H. injection H as <-. eauto 6.
Qed.
Lemma ms_lists fmul su si a m ts : ms_tasks fmul su si a m = Ok ts -> lists_only ts.
Proof.
  intros E. destruct (ms_tasks_ok fmul su si a m ts E) as (us & tu & ti & _ & ->). intros l t f Hl Ht.
  apply in_map_iff in Ht. destruct Ht as (p & <- & _). unfold ms_task. destruct (user_rows m p); [|intros []].
  apply ms_user_lists; auto.
Qed.

(** arguments that only concern threads and progress output *)
Definition same_lko (a b : lko_args) : Prop :=
  a_k a = a_k b /\ a_min a = a_min b /\ a_last a = a_last b /\ a_label a = a_label b /\ a_seed a = a_seed b.
Definition same_ms (a b : ms_args) : Prop :=
  b_uratio a = b_uratio b /\ b_iratio a = b_iratio b /\ b_min a = b_min b /\ b_seed a = b_seed b.

Lemma lko_tasks_same fmul sample a b m ts ts' : same_lko a b -> lko_tasks fmul sample a m = Ok ts ->
  lko_tasks fmul sample b m = Ok ts' -> ts = ts'.
Proof.
  destruct a, b. unfold same_lko; simpl. intros (-> & -> & -> & -> & ->) E1 E2.
  destruct (lko_tasks_ok _ _ _ _ _ E1) as (us & D & ->). destruct (lko_tasks_ok _ _ _ _ _ E2) as (us' & D' & ->).
  rewrite D in D'. injection D' as ->. reflexivity.
Qed.
Lemma ms_samples_eq fmul su si a m x : ms_samples fmul su si a m = Ok x ->
  bind (distinct_values m "user") (fun us =>
  bind (draw su (b_seed a) us (Qfloor (this (fmul (Z.of_nat (length us)) (b_uratio a))))) (fun tu =>
  bind (distinct_values m "item") (fun is =>
  bind (draw si (b_seed a) is (Qfloor (this (fmul (Z.of_nat (length is)) (b_iratio a))))) (fun ti => Ok (us, tu, ti))))) = Ok x.
Proof.
  unfold ms_samples. destruct (negb _); [discriminate|]. destruct (negb _); [discriminate|].
  destruct (Nat.eqb _ _); [discriminate|]. auto.
Qed.
Lemma ms_tasks_same fmul su si a b m ts ts' : same_ms a b -> ms_tasks fmul su si a m = Ok ts ->
  ms_tasks fmul su si b m = Ok ts' -> ts = ts'.
Proof.
  destruct a, b. unfold same_ms; simpl. intros (-> & -> & -> & ->) E1 E2.
  destruct (ms_tasks_ok _ _ _ _ _ _ E1) as (us & tu & ti & D & ->). destruct (ms_tasks_ok _ _ _ _ _ _ E2) as (us' & tu' & ti' & D' & ->).
  apply ms_samples_eq in D, D'. simpl in D, D'. rewrite D in D'. injection D' as -> -> ->. reflexivity.
Qed.

Lemma lko_deterministic fmul sample m a b s t s' t' r1 e1 r2 e2 : same_lko a b ->
  leave_k_out fmul sample a m s t = Done r1 e1 -> leave_k_out fmul sample b m s' t' = Done r2 e2 -> r1 = r2 /\ e1 = e2.
Proof.
  intros S. unfold leave_k_out. destruct (lko_tasks fmul sample a m) as [ts|] eqn:E1; [|discriminate].
  destruct (lko_tasks fmul sample b m) as [ts'|] eqn:E2; [|discriminate].
  assert (ts = ts') by (eapply lko_tasks_same; eauto). subst ts'.
  apply split_same. eapply lko_lists; eauto.
Qed.
Lemma ms_deterministic fmul su si m a b s t s' t' r1 e1 r2 e2 : same_ms a b ->
  matrix_split fmul su si a m s t = Done r1 e1 -> matrix_split fmul su si b m s' t' = Done r2 e2 -> r1 = r2 /\ e1 = e2.
Proof.
  intros S. unfold matrix_split. destruct (ms_tasks fmul su si a m) as [ts|] eqn:E1; [|discriminate].
  destruct (ms_tasks fmul su si b m) as [ts'|] eqn:E2; [|discriminate].
  assert (ts = ts') by (eapply ms_tasks_same; eauto). subst ts'.
  apply split_same. eapply ms_lists; eauto.
Qed.

(** without a progress bar the call always returns *)
Lemma quiet_returns n m ts sched : n <> 0%nat -> fair n sched ->
  exists t train test, run_split n false m (Ok ts) sched t = Done train test.
Proof.
  intros Hn Hf. unfold run_split. set (en := enough _).
  destruct (fair_returns cellv en n init_shared ts Joining sched Hn Hf) as [t E].
  - discriminate.
  - exists t. rewrite E. eauto.
Qed.

(** ** matrix_split *)
Lemma value_eqb_same t ty v w : type_of v = ty -> type_of w = ty ->
  (forall z, w = VInt z -> Z.abs z <= 2 ^ 53) -> val_eqb (upcast t w) v = value_eqb w v.
Proof.
  intros T1 T2 S. assert (D : forall x y, Qc_eq_bool (Qc_of_Z x) (Qc_of_Z y) = Z.eqb x y).
  { intros x y. apply eq_true_iff_eq. rewrite Z.eqb_eq. split.
    - intros H. apply Qc_eq_bool_correct in H. apply Qc_of_Z_inj; auto.
    - intros ->. unfold Qc_eq_bool. destruct (Qc_eq_dec (Qc_of_Z y) (Qc_of_Z y)); congruence. }
  destruct v, w; simpl in *; subst; try discriminate; destruct t; simpl; auto.
  rewrite f64_exact by auto. apply D.
Qed.

Lemma mem_b_ext_in {A} (f g : A -> A -> bool) x y l : (forall v, In v l -> f x v = g y v) -> mem_b f x l = mem_b g y l.
Proof. induction l as [|v l IH]; simpl; auto. intros H. rewrite H by auto. rewrite IH by auto. reflexivity. Qed.

Lemma column_In c v rs : In v (column c rs) <-> exists r, In r rs /\ cell r c = Some v.
Proof.
  unfold column. rewrite in_flat_map. split; intros (r & Hr & E); exists r; split; auto.
  - destruct (cell r c); simpl in E; [destruct E as [->|[]]; reflexivity|contradiction].
  - rewrite E. simpl; auto.
Qed.

Lemma distinct_length m c t vs : wf_mem m -> c <> "rid" -> In c (m_columns m) -> col_type m c = Ok t ->
  distinct_values m c = Ok vs -> length vs = n_distinct c m /\ NoDup vs /\ (forall v, In v vs <-> In v (column c (rows_of m))).
Proof.
  intros W N H T D. destruct (distinct_values_ok m c t W N H T) as (vs' & E & ND & I & _).
  rewrite D in E. injection E as <-. 
  assert (J : forall v, In v vs <-> In v (column c (rows_of m))) by (intros v; rewrite column_In; apply I).
  split; [|auto]. apply Permutation_length. apply NoDup_Permutation; auto; [apply NoDup_nodup|].
  intros v. rewrite nodup_In. apply J.
Qed.

Lemma draw_ok f (Hf : sample_ok f) seed l n vs : draw f seed l n = Ok vs -> NoDup l ->
  Z.of_nat (length vs) = n /\ NoDup vs /\ forall v, In v vs -> In v l.
Proof.
  unfold draw. destruct (_ && _) eqn:E; [|discriminate]. intros H N. injection H as <-.
  apply andb_true_iff in E. destruct E as [E1 E2]. apply Z.leb_le in E1, E2.
  destruct (Hf seed l (Z.to_nat n)) as [L [rest P]]; [lia|]. split; [lia|].
  assert (N2 := Permutation_NoDup P N). split.
  - clear P L. revert N2. generalize (f seed l (Z.to_nat n)). induction l0 as [|x l0 IH]; simpl; [constructor|].
    intros N2. inversion N2; subst. constructor; auto. intros I. apply H1. apply in_or_app; auto.
  - intros v Hv. apply (Permutation_in _ (Permutation_sym P)). apply in_or_app; auto.
Qed.

Section Matrix.
Variables (m : mem) (mn : Z) (tu ti : list value) (ty : dtype).
Hypothesis U : int_users m.
Hypothesis Hi : In "item" (m_columns m).
Hypothesis Ht : col_type m "item" = Ok ty.
Hypothesis Hsm : small_col m "item".
Hypothesis Htu : forall v, In v tu -> In v (column "user" (rows_of m)).
Hypothesis Hti : forall v, In v ti -> In v (column "item" (rows_of m)).

Definition vkey (v : value) : Z := match v with VInt z => z | _ => 0 end.
Definition m_rem (v : value) : list Z :=
  if user_count (vkey v) m <? mn then map r_rid (rows_of (part m (vkey v))) else [].
Definition m_test (v : value) : list Z :=
  if user_count (vkey v) m <? mn then [] else
  if mem_b value_eqb v tu then
    let x := map r_rid (filter (item_in ti) (rows_of (part m (vkey v)))) in
    if (length x <? length (rows_of (part m (vkey v))))%nat then x else []
  else [].

Lemma item_test t r : In r (rows_of m) -> mem_b val_eqb (upcast t (row_val_or "item" r)) ti = item_in ti r.
Proof.
  intros Hr. destruct (wf_row_val m "item" ty r (iu_wf _ U) Ht Hr) as (w & E & T).
  assert (Ew : row_val_or "item" r = w) by (unfold row_val_or; rewrite E; reflexivity).
  change (row_val r "item") with (cell r "item") in E. unfold item_in. rewrite E, Ew.
  apply mem_b_ext_in. intros v Hv. apply Hti, column_In in Hv. destruct Hv as (r' & Hr' & E').
  destruct (wf_row_val m "item" ty r' (iu_wf _ U) Ht Hr') as (w' & E2 & T').
  change (row_val r' "item") with (cell r' "item") in E2. rewrite E' in E2. injection E2 as <-.
  apply value_eqb_same with (ty := ty); auto. intros z ->. apply (Hsm r z Hr E).
Qed.

Lemma user_test z : mem_b val_eqb (VInt z) tu = mem_b value_eqb (VInt z) tu.
Proof.
  apply mem_b_ext_in. intros v Hv. apply Htu, column_In in Hv. destruct Hv as (r & Hr & E).
  destruct (int_user m r U Hr) as (z' & E' & _). rewrite E in E'. injection E' as ->. reflexivity.
Qed.

Lemma ms_task_blocks z : Z.abs z <= 2 ^ 53 ->
  updates cellv 0 (ms_task mn ti tu m (VInt z)) = map extend (if user_count z m <? mn then [m_rem (VInt z)] else []) /\
  (exists xss, updates cellv 1 (ms_task mn ti tu m (VInt z)) = map extend xss /\
     forall i, (exists xs, In xs xss /\ In i xs) <-> In i (m_test (VInt z))) /\
  updates cellv 2 (ms_task mn ti tu m (VInt z)) = [incr].
Proof.
  intros Hb. unfold ms_task. rewrite (user_rows_int m z U Hb). unfold ms_user.
  change (Z.of_nat (mem_len (part m z))) with (user_count z m). unfold m_rem, m_test. simpl vkey.
  destruct (user_count z m <? mn) eqn:E1.
  - rewrite rid_list_ok by (apply part_wf, U). split; [reflexivity|]. split; [|reflexivity].
    exists []. split; [reflexivity|]. intros i. split; [intros (xs & [] & _)|intros []].
  - rewrite user_test. destruct (mem_b value_eqb (VInt z) tu).
    + destruct (rid_items_ok (part m z)) as [t E]; [apply part_wf, U|exact Hi|]. rewrite E.
      set (xs := map (fun r : row => (r_rid r, upcast t (row_val_or "item" r))) (rows_of (part m z))).
      cbv zeta.
      assert (EX : map fst (filter (fun x => mem_b val_eqb (snd x) ti) xs) = map r_rid (filter (item_in ti) (rows_of (part m z)))).
      { subst xs. assert (G : forall rs, (forall r, In r rs -> In r (rows_of m)) ->
          map fst (filter (fun x : Z * value => mem_b val_eqb (snd x) ti) (map (fun r => (r_rid r, upcast t (row_val_or "item" r))) rs)) =
          map r_rid (filter (item_in ti) rs)).
        { induction rs as [|r rs IH]; simpl; auto. intros H. rewrite (item_test t r) by auto.
          destruct (item_in ti r); simpl; rewrite IH by auto; reflexivity. }
        apply G. intros r Hr. simpl in Hr. apply filter_In in Hr. tauto. }
      rewrite EX. clear EX. set (tt := map r_rid _). rewrite !updates_app, !updates_locks. cbn [app].
      change (mem_len (part m z)) with (length (rows_of (part m z))).
      destruct (length tt <? length (rows_of (part m z)))%nat.
      * split; [reflexivity|]. split; [|reflexivity]. exists [tt]. split; [reflexivity|].
        intros i. split; [intros (ys & [<-|[]] & H); exact H|]. intros H. exists tt. simpl; auto.
      * split; [reflexivity|]. split; [|reflexivity]. exists []. split; [reflexivity|].
        intros i. split; [intros (ys & [] & _)|intros []].
    + split; [reflexivity|]. split; [|reflexivity]. exists []. split; [reflexivity|].
      intros i. split; [intros (ys & [] & _)|intros []].
Qed.

Lemma m_rem_own v : own m vkey v (m_rem v).
Proof. intros i. unfold m_rem. destruct (_ <? _); [auto|intros []]. Qed.
Lemma m_test_own v : own m vkey v (m_test v).
Proof.
  intros i. unfold m_test. destruct (_ <? _); [intros []|]. destruct (mem_b _ _ _); [|intros []].
  cbv zeta. destruct (_ <? _)%nat; [|intros []]. intros H. apply in_map_iff in H. destruct H as (r & <- & Hr).
  apply filter_In in Hr. apply in_map. tauto.
Qed.

Lemma filter_length_lt {A} (p : A -> bool) l : (length (filter p l) <? length l)%nat = existsb (fun x => negb (p x)) l.
Proof.
  induction l as [|x l IH]; simpl; auto.
  assert (L : (length (filter p l) <= length l)%nat).
  { clear IH. induction l; simpl; auto. destruct (p a); simpl; lia. }
  destruct (p x); simpl; [exact IH|]. apply Nat.ltb_lt. lia.
Qed.

Lemma m_test_row r : In r (rows_of m) -> (In (r_rid r) (m_test (VInt (user_of r))) <-> ms_test mn tu ti m r = true).
Proof.
  intros Hr. destruct (int_user m r U Hr) as (z & Ez & _).
  assert (Eu : user_of r = z) by (unfold user_of; rewrite Ez; reflexivity).
  unfold m_test, ms_test. rewrite Eu. simpl vkey. rewrite Z.ltb_antisym.
  destruct (mn <=? user_count z m); cbn [negb andb]; [|split; [intros []|discriminate]].
  destruct (mem_b value_eqb (VInt z) tu); cbn [negb andb]; [|split; [intros []|discriminate]]. cbv zeta.
  rewrite map_length. change (filter (user_is z) (rows_of m)) with (rows_of (part m z)).
  rewrite filter_length_lt.
  assert (EE : existsb (fun x => negb (item_in ti x)) (rows_of (part m z)) =
               existsb (fun r' => user_is z r' && negb (item_in ti r')) (rows_of m)).
  { assert (G : forall l, existsb (fun x => negb (item_in ti x)) (filter (user_is z) l) =
                          existsb (fun r' => user_is z r' && negb (item_in ti r')) l).
    { induction l as [|x l IH]; simpl; auto. destruct (user_is z x); simpl; rewrite IH; reflexivity. }
    apply G. }
  rewrite EE. destruct (existsb (fun r0 => user_is z r0 && negb (item_in ti r0)) (rows_of m)); [|rewrite andb_false_r; split; [intros []|discriminate]].
  rewrite andb_true_r. rewrite in_map_iff. split.
  - intros (r' & E & H). apply filter_In in H. destruct H as [H I]. simpl in H. apply filter_In in H.
    assert (r' = r) by (apply (NoDup_map_inj r_rid (rows_of m)); try tauto; apply U). subst. exact I.
  - intros I. exists r. split; auto. apply filter_In. split; auto. simpl. apply filter_In. split; auto.
    apply user_is_iff; auto.
Qed.
Lemma m_rem_row r : In r (rows_of m) -> (In (r_rid r) (m_rem (VInt (user_of r))) <-> mn <=? user_count (user_of r) m = false).
Proof.
  intros Hr. destruct (int_user m r U Hr) as (z & Ez & _).
  assert (Eu : user_of r = z) by (unfold user_of; rewrite Ez; reflexivity).
  unfold m_rem. rewrite Eu. simpl vkey. rewrite Z.ltb_antisym. destruct (mn <=? user_count z m); simpl; [split; [intros []|discriminate]|].
  split; auto. intros _. apply in_map. apply filter_In. split; auto. apply user_is_iff; auto.
Qed.

Lemma ms_users us : distinct_values m "user" = Ok us ->
  NoDup (map vkey us) /\
  (forall r, In r (rows_of m) -> In (VInt (user_of r)) us) /\
  (forall v, In v us -> exists z, v = VInt z /\ Z.abs z <= 2 ^ 53).
Proof.
  intros D. destruct (distinct_values_ok m "user" DInt (iu_wf _ U) ltac:(discriminate) (iu_col _ U) (iu_type _ U))
    as (vs & E & N & I & T). rewrite D in E. injection E as <-.
  assert (V : forall v, In v us -> exists z, v = VInt z /\ Z.abs z <= 2 ^ 53).
  { intros v Hv. apply I in Hv. destruct Hv as (r & Hr & Ec). destruct (int_user m r U Hr) as (z & Ez & Hz).
    exists z. split; auto. congruence. }
  split; [|split; auto].
  - clear - N V. induction us as [|v us IH]; simpl; [constructor|]. inversion N; subst. constructor.
    + intros J. apply in_map_iff in J. destruct J as (w & Ew & Iw). apply H1.
      destruct (V v (or_introl eq_refl)) as (z & -> & _). destruct (V w (or_intror Iw)) as (z' & -> & _). simpl in Ew. congruence.
    + apply IH; auto. intros; apply V; simpl; auto.
  - intros r Hr. apply I. exists r. split; auto. destruct (int_user m r U Hr) as (z & Ez & _).
    unfold user_of. rewrite Ez. reflexivity.
Qed.

Lemma choose_list {X Y} (P : X -> Y -> Prop) (d : Y) (eqd : forall x y : X, {x = y} + {x <> y}) (us : list X) :
  (forall u, In u us -> exists y, P u y) -> exists f, forall u, In u us -> P u (f u).
Proof.
  induction us as [|u us IH]; intros H; [exists (fun _ => d); intros ? []|].
  destruct IH as [f Hf]; [intros; apply H; simpl; auto|]. destruct (H u (or_introl eq_refl)) as [y Hy].
  exists (fun x => if eqd x u then y else f x). intros x Hx. destruct (eqd x u) as [->|N]; auto.
  apply Hf. destruct Hx; congruence.
Qed.

Lemma ms_done us n v sched t train test : distinct_values m "user" = Ok us ->
  run_split n v m (Ok (map (ms_task mn ti tu m) us)) sched t = Done train test -> matrix_spec mn tu ti m train test.
Proof.
  intros D H. destruct (ms_users us D) as (N & Iu & V).
  destruct (choose_list (fun u xss => updates cellv 1 (ms_task mn ti tu m u) = map extend xss /\
       forall i, (exists xs, In xs xss /\ In i xs) <-> In i (m_test u)) [] value_eq_dec us) as [tst Htst].
  { intros u Hu. destruct (V u Hu) as (z & -> & Hz). apply (ms_task_blocks z Hz). }
  pose (rm := fun u => if user_count (vkey u) m <? mn then [m_rem u] else []).
  destruct (split_done us (ms_task mn ti tu m) rm tst) with (3 := H) as (l0 & l1 & -> & -> & L0 & L1).
  { intros u Hu. destruct (V u Hu) as (z & -> & Hz). apply (ms_task_blocks z Hz). }
  { intros u Hu. apply (Htst u Hu). }
  assert (L0' : forall i, In i l0 <-> exists u, In u us /\ In i (m_rem u)).
  { intros i. rewrite L0. split.
    - intros (u & xs & Hu & Hx & Hi'). exists u. split; auto. unfold rm in Hx. destruct (_ <? _); [|destruct Hx].
      destruct Hx as [<-|[]]; auto.
    - intros (u & Hu & Hx). exists u, (m_rem u). split; auto. split; auto. unfold rm. unfold m_rem in Hx.
      destruct (_ <? _); [left; reflexivity|destruct Hx]. }
  assert (L1' : forall i, In i l1 <-> exists u, In u us /\ In i (m_test u)).
  { intros i. rewrite L1. split.
    - intros (u & xs & Hu & Hx & Hi'). exists u. split; auto. apply (Htst u Hu). eauto.
    - intros (u & Hu & Hx). apply (Htst u Hu) in Hx. destruct Hx as (xs & Hx & Hi'). eauto. }
  assert (R0 : forall r, In r (rows_of m) -> (In (r_rid r) l0 <-> mn <=? user_count (user_of r) m = false)).
  { intros r Hr. rewrite <- (m_rem_row r Hr).
    apply (own_only m us vkey U N m_rem l0 (fun x _ => m_rem_own x) L0' (VInt (user_of r)) r (Iu r Hr) Hr).
    destruct (int_user m r U Hr) as (z & Ez & _). apply user_is_iff. unfold user_of. rewrite Ez. reflexivity. }
  assert (R1 : forall r, In r (rows_of m) -> (In (r_rid r) l1 <-> ms_test mn tu ti m r = true)).
  { intros r Hr. rewrite <- (m_test_row r Hr).
    apply (own_only m us vkey U N m_test l1 (fun x _ => m_test_own x) L1' (VInt (user_of r)) r (Iu r Hr) Hr).
    destruct (int_user m r U Hr) as (z & Ez & _). apply user_is_iff. unfold user_of. rewrite Ez. reflexivity. }
  destruct (drop_spec m (l0 ++ l1)) as (_ & Ed & _). destruct (drop_spec m l1) as (Ed' & _).
  split; [rewrite Ed'|rewrite Ed]; f_equal; apply filter_ext_in; intros r Hr.
  - apply eq_true_iff_eq. rewrite listed_iff. apply R1; auto.
  - apply eq_true_iff_eq. rewrite negb_true_iff, andb_true_iff, negb_true_iff.
    assert (G : listed (l0 ++ l1) r = false <-> ~ In (r_rid r) l0 /\ ~ In (r_rid r) l1).
    { split.
      - intros F. split; intros I; assert (X : listed (l0 ++ l1) r = true) by (apply listed_iff, in_or_app; auto); congruence.
      - intros [A B]. destruct (listed (l0 ++ l1) r) eqn:X; auto. apply listed_iff, in_app_or in X. tauto. }
    rewrite G, (R0 r Hr), (R1 r Hr).
    destruct (mn <=? user_count (user_of r) m), (ms_test mn tu ti m r); intuition congruence.
Qed.

Lemma ms_fair_returns us n v sched : distinct_values m "user" = Ok us -> n <> 0%nat -> fair n sched ->
  exists t train test, run_split n v m (Ok (map (ms_task mn ti tu m) us)) sched t = Done train test.
Proof.
  intros D Hn Hf. destruct (ms_users us D) as (_ & _ & V). apply split_returns; auto.
  intros u Hu. destruct (V u Hu) as (z & -> & Hz). apply (ms_task_blocks z Hz).
Qed.
End Matrix.

Lemma ms_samples_ok fmul su si a m ty us tu ti : sample_ok su -> sample_ok si -> int_users m ->
  In "item" (m_columns m) -> col_type m "item" = Ok ty -> ms_samples fmul su si a m = Ok (us, tu, ti) ->
  distinct_values m "user" = Ok us /\
  drawn "user" m (Qfloor (this (fmul (Z.of_nat (n_distinct "user" m)) (b_uratio a)))) tu /\
  drawn "item" m (Qfloor (this (fmul (Z.of_nat (n_distinct "item" m)) (b_iratio a)))) ti.
Proof.
  intros Su Si U Hi Ht H. apply ms_samples_eq in H.
  destruct (distinct_values m "user") as [us'|] eqn:Du; cbn [bind] in H; [|discriminate].
  destruct (draw su (b_seed a) us' _) as [tu'|] eqn:Eu; cbn [bind] in H; [|discriminate].
  destruct (distinct_values m "item") as [is'|] eqn:Di; cbn [bind] in H; [|discriminate].
  destruct (draw si (b_seed a) is' _) as [ti'|] eqn:Ei; cbn [bind] in H; [|discriminate].
  injection H as -> -> ->.
  destruct (distinct_length m "user" DInt us (iu_wf _ U) ltac:(discriminate) (iu_col _ U) (iu_type _ U) Du) as (Lu & Nu & Iu).
  destruct (distinct_length m "item" ty is' (iu_wf _ U) ltac:(discriminate) Hi Ht Di) as (Li & Ni & Ii).
  split; auto. rewrite <- Lu, <- Li. split.
  - destruct (draw_ok su Su _ _ _ _ Eu Nu) as (A & B & C). split; auto. split; auto. intros v Hv. apply Iu; auto.
  - destruct (draw_ok si Si _ _ _ _ Ei Ni) as (A & B & C). split; auto. split; auto. intros v Hv. apply Ii; auto.
Qed.

Lemma ms_correct fmul su si a m ty sched t train test : sample_ok su -> sample_ok si -> int_users m ->
  In "item" (m_columns m) -> col_type m "item" = Ok ty -> small_col m "item" ->
  matrix_split fmul su si a m sched t = Done train test ->
  exists users items,
    drawn "user" m (Qfloor (this (fmul (Z.of_nat (n_distinct "user" m)) (b_uratio a)))) users /\
    drawn "item" m (Qfloor (this (fmul (Z.of_nat (n_distinct "item" m)) (b_iratio a)))) items /\
    matrix_spec (b_min a) users items m train test.
Proof.
  intros Su Si U Hi Ht Hs. unfold matrix_split. destruct (ms_tasks fmul su si a m) as [ts|] eqn:E; [|discriminate].
  destruct (ms_tasks_ok _ _ _ _ _ _ E) as (us & tu & ti & D & ->). intros H.
  destruct (ms_samples_ok fmul su si a m ty us tu ti Su Si U Hi Ht D) as (Du & Ru & Ri).
  exists tu, ti. split; auto. split; auto.
  eapply ms_done; eauto; [apply Ru|apply Ri].
Qed.

Lemma ms_returns fmul su si a m ty ts sched : sample_ok su -> sample_ok si -> int_users m ->
  In "item" (m_columns m) -> col_type m "item" = Ok ty -> small_col m "item" ->
  ms_tasks fmul su si a m = Ok ts -> fair (b_threads a) sched ->
  exists t train test, matrix_split fmul su si a m sched t = Done train test.
Proof.
  intros Su Si U Hi Ht Hs E Hf. unfold matrix_split. rewrite E.
  destruct (ms_tasks_ok _ _ _ _ _ _ E) as (us & tu & ti & D & ->).
  destruct (ms_samples_ok fmul su si a m ty us tu ti Su Si U Hi Ht D) as (Du & Ru & Ri).
  eapply ms_fair_returns; eauto; [apply Ru|apply Ri|].
  unfold ms_samples in D. destruct (negb _); [discriminate|]. destruct (negb _); [discriminate|].
  destruct (Nat.eqb (b_threads a) 0) eqn:E0; [discriminate|]. apply Nat.eqb_neq in E0. exact E0.
Qed.

(** what the characterisation says about a user of the test set *)
Lemma ms_trainable mn tu ti m train test r : int_users m -> matrix_spec mn tu ti m train test ->
  In r (rows_of test) -> exists r', In r' (rows_of train) /\ cell r' "user" = cell r "user".
Proof.
  intros U [-> ->] H. simpl in H. apply filter_In in H. destruct H as [Hr T]. unfold ms_test in T.
  rewrite !andb_true_iff in T. destruct T as [[[T1 T2] T3] T4]. apply existsb_exists in T4.
  destruct T4 as (r' & Hr' & T4). apply andb_true_iff in T4. destruct T4 as [Ur' I']. exists r'.
  destruct (int_user m r U Hr) as (z & Ez & _).
  assert (Eu : user_of r = z) by (unfold user_of; rewrite Ez; reflexivity).
  rewrite Eu in *. apply user_is_iff in Ur'.
  assert (Eu' : user_of r' = z) by (unfold user_of; rewrite Ur'; reflexivity).
  split; [|congruence]. simpl. apply filter_In. split; auto. unfold ms_test. rewrite Eu', T1. simpl.
  apply negb_true_iff in I'. rewrite I'. rewrite andb_false_r. reflexivity.
Qed.

(** ** random_split *)
Lemma pick_sub rids : forall idx idxs, StronglySorted Z.lt idxs ->
  Forall (fun i => idx <= i < idx + Z.of_nat (length rids)) idxs ->
  length (pick idx rids idxs) = length idxs /\ exists rest, Permutation rids (pick idx rids idxs ++ rest).
Proof.
  induction rids as [|r rids IH]; intros idx idxs S F.
  - destruct idxs; simpl; [split; auto; exists []; auto|]. inversion F; subst. simpl in *. lia.
  - destruct idxs as [|i idxs]; [simpl; split; auto; exists (r :: rids); auto|].
    inversion F; subst. inversion S; subst. simpl pick. simpl length in *. destruct (idx =? i) eqn:E.
    + apply Z.eqb_eq in E. subst i. assert (G := IH (idx + 1) idxs H3).
      assert (F' : Forall (fun i => idx + 1 <= i < idx + 1 + Z.of_nat (length rids)) idxs).
      { rewrite Forall_forall in *. intros x Hx. specialize (H2 x Hx). specialize (H4 x Hx). lia. }
      destruct (G F') as (L & rest & P).
      assert (X : pick (idx + 1) rids [] = []) by (destruct rids; reflexivity).
      assert (Y : match idxs with [] => [] | _ => pick (idx + 1) rids idxs end = pick (idx + 1) rids idxs).
      { destruct idxs; auto. }
      rewrite Y. simpl. split; [rewrite L; reflexivity|]. exists rest. apply perm_skip. exact P.
    + apply Z.eqb_neq in E. destruct (IH (idx + 1) (i :: idxs) S) as (L & rest & P).
      { constructor; [lia|]. rewrite Forall_forall in *. intros x Hx. specialize (H2 x Hx). specialize (H4 x Hx). lia. }
      split; auto. exists (r :: rest). eapply perm_trans; [apply perm_skip; exact P|]. apply Permutation_middle.
Qed.

Lemma sorted_indices l : NoDup l -> StronglySorted Z.lt (sort_by Z.leb l).
Proof.
  intros N.
  assert (S : StronglySorted (le_rel Z.leb) (sort_by Z.leb l)).
  { apply sort_by_sorted.
    - intros x y. destruct (Z.leb x y) eqn:E; auto. right. apply Z.leb_gt in E. apply Z.leb_le. lia.
    - intros x y z. rewrite !Z.leb_le. lia. }
  assert (N' : NoDup (sort_by Z.leb l)) by (eapply Permutation_NoDup; [apply sort_by_perm|auto]).
  induction S as [|x k S IH F]; constructor.
  - inversion N'; auto.
  - inversion N'; subst. rewrite Forall_forall in *. intros y Hy. specialize (F y Hy). unfold le_rel in F.
    apply Z.leb_le in F. assert (x <> y) by congruence. lia.
Qed.

Lemma Qfloor_between n q : (0 <= q)%Qc -> (q <= Qc_of_Z n)%Qc -> 0 <= Qfloor (this q) <= n.
Proof.
  unfold Qcle. intros A B. split.
  - apply Qfloor_resp_le in A. simpl in A. exact A.
  - apply Qfloor_resp_le in B. unfold Qc_of_Z in B. unfold Q2Qc in B. cbn [this] in B. rewrite (Qfloor_comp _ _ (Qred_correct (inject_Z n))) in B.
    rewrite Qfloor_Z in B. exact B.
Qed.

Lemma random_split_ok fmul sidx m ratio seed : fmul_ok fmul -> sample_range_ok sidx ->
  wf_mem m -> NoDup (map r_rid (rows_of m)) -> Z.of_nat (mem_len m) <= 2 ^ 53 -> (0 < ratio)%Qc -> (ratio < 1)%Qc ->
  let k := Qfloor (this (fmul (Z.of_nat (mem_len m)) ratio)) in
  (0 < k -> exists train test, random_split fmul sidx ratio seed m = Ok (train, test) /\
     partition_of m train test /\ Z.of_nat (mem_len test) = k) /\
  (k = 0 -> random_split fmul sidx ratio seed m = Err AssertionError).
Proof.
  intros Hf Hs W N Hb R0 R1 k.
  destruct (Hf (Z.of_nat (mem_len m)) ratio (conj (Nat2Z.is_nonneg _) Hb) R0 (Qclt_le_weak _ _ R1)) as [F0 F1].
  assert (B := Qfloor_between _ _ F0 F1). fold k in B.
  unfold random_split. apply Qcltb_iff in R0, R1. rewrite R0, R1. cbn [negb andb]. fold k.
  assert (E : (0 <=? k) && (k <=? Z.of_nat (mem_len m)) = true).
  { apply andb_true_iff. rewrite !Z.leb_le. lia. }
  rewrite E. cbn [negb]. destruct (Hs seed (Z.of_nat (mem_len m)) (Z.to_nat k) ltac:(lia)) as (L & ND & In01).
  set (l := sidx seed (Z.of_nat (mem_len m)) (Z.to_nat k)) in *.
  assert (P := sort_by_perm Z.leb l). assert (LL := Permutation_length P). split.
  - intros Hk. destruct (Nat.eqb (length (sort_by Z.leb l)) 0) eqn:Z0; [apply Nat.eqb_eq in Z0; lia|].
    rewrite rid_list_ok by auto. cbn [bind].
    destruct (pick_sub (map r_rid (rows_of m)) 0 (sort_by Z.leb l)) as (PL & rest & PP).
    { apply sorted_indices; auto. }
    { apply Forall_forall. intros i Hi. apply (Permutation_in _ (Permutation_sym P)) in Hi. rewrite map_length.
      apply In01 in Hi. exact Hi. }
    set (ids := pick 0 (map r_rid (rows_of m)) (sort_by Z.leb l)) in *.
    eexists; eexists; split; [reflexivity|]. split.
    + destruct (drop_spec m ids) as (A & A' & _). exists (listed ids). auto.
    + destruct (drop_spec m ids) as (A & _). rewrite A. transitivity (Z.of_nat (length (filter (listed ids) (rows_of m)))); [reflexivity|].
      rewrite filter_listed_length; auto.
      * lia.
      * assert (N2 := Permutation_NoDup PP N). clear - N2. induction ids as [|x ids IH]; simpl in *; [constructor|].
        inversion N2; subst. constructor; auto. intros I. apply H1. apply in_or_app; auto.
      * intros x Hx. apply (Permutation_in _ (Permutation_sym PP)). apply in_or_app; auto.
  - intros ->. assert (length (sort_by Z.leb l) = 0%nat) by (rewrite <- LL, L; reflexivity). rewrite H. reflexivity.
Qed.
