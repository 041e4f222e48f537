(** Properties C16 to C24: the data set splits. *)
From Coq Require Import String Ascii.
From Coq Require Import List ZArith QArith Qcanon Qround Bool Lia Permutation Sorted.
From Verif Require Import Py PyFacts MemModel MemSpec MemFacts MemFacts2.
From Verif Require Import MemHeap MemHeapSpec MemHeapFacts SplitHeap SplitHeapFacts PropMem.
From Verif Require Import Conc ConcFacts SplitModel SplitSpec SplitFacts SplitFacts2 SplitFacts3 SplitFacts4 SplitFacts5.
Import ListNotations.
Open Scope string_scope.
Open Scope Z_scope.

(** *** A concrete data set, generator and schedule used in the examples *)
Definition t_row (rid u i t : Z) : row :=
  mkRow rid [("user", VInt u); ("item", VInt i); ("interaction", VInt 1); ("timestamp", VInt t)].
Definition t_mem (rows : list row) : mem :=
  mem_of_frame (mkFrame [("user", DInt); ("item", DInt); ("interaction", DInt); ("timestamp", DInt)] rows).
(** user 7 has four rows, user 5 two, user 9 one *)
Definition tex : mem := t_mem [t_row 0 7 1 10; t_row 1 5 1 10; t_row 2 7 2 20; t_row 3 9 2 5; t_row 4 7 3 30;
                               t_row 5 5 3 40; t_row 6 7 4 30].
Definition exact_mul (n : Z) (q : Qc) : Qc := (Qc_of_Z n * q)%Qc.
Definition first_n {A} (_ : Z) (l : list A) (n : nat) : list A := firstn n l.
Definition first_idx (_ n : Z) (k : nat) : list Z := map Z.of_nat (rev (seq 0 k)).
(** the calling thread, worker 0, worker 1, the calling thread, ... *)
Definition turns (t : nat) : option nat :=
  match (t mod 3)%nat with 0%nat => None | S w => Some w end.

Lemma first_n_ok A : sample_ok (@first_n A).
Proof.
  intros seed l n H. split; [apply firstn_length_le; auto|]. exists (skipn n l). unfold first_n. rewrite firstn_skipn. reflexivity.
Qed.
Lemma first_idx_ok : sample_range_ok first_idx.
Proof.
  intros seed n k H. unfold first_idx. split; [rewrite map_length, rev_length, seq_length; reflexivity|]. split.
  - apply FinFun.Injective_map_NoDup; [intros x y; apply Nat2Z.inj|]. apply NoDup_rev, seq_NoDup.
  - intros i Hi. apply in_map_iff in Hi. destruct Hi as (j & <- & Hj). apply in_rev, in_seq in Hj. lia.
Qed.
Lemma exact_mul_ok : fmul_ok exact_mul.
Proof.
  intros n r Hn R0 R1. unfold exact_mul.
  assert (N0 : (0 <= Qc_of_Z n)%Qc).
  { unfold Qcle. eapply Qle_trans; [|apply Qle_lteq; right; symmetry; apply Qred_correct].
    assert (H : 0 <= n) by lia. rewrite Zle_Qle in H. exact H. }
  split.
  - replace 0%Qc with (0 * r)%Qc by ring. apply Qcmult_le_compat_r; auto. apply Qclt_le_weak; auto.
  - rewrite <- (Qcmult_1_r (Qc_of_Z n)) at 2. rewrite !(Qcmult_comm (Qc_of_Z n)). apply Qcmult_le_compat_r; auto.
Qed.
Lemma turns_fair : fair 2 turns.
Proof.
  intros a Ha t. unfold turns. exists (3 * t + match a with None => 0 | Some w => S w end)%nat. split; [lia|].
  rewrite Nat.add_comm, Nat.mul_comm, Nat.mod_add by discriminate.
  destruct a as [w|]; [|reflexivity]. rewrite Nat.mod_small by lia. reflexivity.
Qed.
Lemma t_int_users rows : NoDup (map r_rid rows) ->
  (forall r, In r rows -> exists rid u i t, r = t_row rid u i t /\ Z.abs u <= 2 ^ 53) -> int_users (t_mem rows).
Proof.
  intros N H. constructor.
  - constructor.
    + constructor.
      * simpl. repeat constructor; simpl; intuition discriminate.
      * simpl. intuition discriminate.
      * simpl. intros r Hr. destruct (H r Hr) as (rid & u & i & t & -> & _). reflexivity.
      * simpl. intros r c t Hr Hc. destruct (H r Hr) as (rid & u & i & t' & -> & _). intuition; subst;
        match goal with H : (_, _) = (_, _) |- _ => injection H as <- <- end; eexists; split; reflexivity.
    + simpl. repeat constructor; simpl; intuition discriminate.
    + simpl. intros c. intuition.
  - intros c t [<-|[<-|[]]] E; discriminate.
  - simpl. auto.
  - reflexivity.
  - intros r z Hr E. destruct (H r Hr) as (rid & u & i & t & -> & Hu). unfold cell in E. simpl in E. injection E as <-. exact Hu.
  - exact N.
Qed.
Ltac t_rows := simpl; intros r H; intuition; subst; (eexists; eexists; eexists; eexists; split; [reflexivity|vm_compute; discriminate]).
Lemma tex_ok : int_users tex.
Proof.
  apply t_int_users.
  - simpl. repeat constructor; simpl; intuition discriminate.
  - t_rows.
Qed.

(** *** C16 *)
Theorem C16_random_split_partition : forall fmul sample_idx m ratio seed,
  fmul_ok fmul -> sample_range_ok sample_idx ->
  wf_mem m -> NoDup (map r_rid (rows_of m)) -> Z.of_nat (mem_len m) <= 2 ^ 53 -> (0 < ratio)%Qc -> (ratio < 1)%Qc ->
  let k := Qfloor (this (fmul (Z.of_nat (mem_len m)) ratio)) in
  (0 < k -> exists train test, random_split fmul sample_idx ratio seed m = Ok (train, test) /\
     partition_of m train test /\ Z.of_nat (mem_len test) = k) /\
  (k = 0 -> random_split fmul sample_idx ratio seed m = Err AssertionError).
Proof. exact random_split_ok. Qed.
Print Assumptions C16_random_split_partition.

Example C16_example : exists train test,
  random_split exact_mul first_idx (Q2Qc (1 # 2)) 0 tex = Ok (train, test) /\
  map r_rid (rows_of test) = [0; 1; 2] /\ map r_rid (rows_of train) = [3; 4; 5; 6] /\
  fmul_ok exact_mul /\ sample_range_ok first_idx /\ wf_mem tex.
Proof.
  eexists; eexists. split; [vm_compute; reflexivity|]. split; [reflexivity|]. split; [reflexivity|].
  split; [apply exact_mul_ok|]. split; [apply first_idx_ok|apply tex_ok].
Qed.

(** *** C17: [lko_spec k_of minimum m train test] says how many rows of each user
    are in the two results, that no row is in both, and that rows are unchanged *)
Theorem C17_leave_k_out_exact : forall fmul sample a k m sched t train test,
  sample_ok sample -> int_users m -> (a_last a = true -> In (a_label a) (m_columns m)) ->
  a_k a = KInt k ->
  leave_k_out fmul sample a m sched t = Done train test ->
  lko_spec (fun _ => k) (a_min a) m train test.
Proof.
  intros fmul sample a k m sched t train test Hs U Hl Hk H.
  assert (S := lko_correct fmul sample Hs a m U Hl sched t train test H). rewrite Hk in S. exact S.
Qed.
Print Assumptions C17_leave_k_out_exact.

Definition lko_ex := mkLko (KInt 1) 2 false "timestamp" 0 2 true.
Example C17_example : exists train test, leave_k_out exact_mul first_n lko_ex tex turns 200 = Done train test /\
  map r_rid (rows_of test) = [0; 1] /\ map r_rid (rows_of train) = [2; 4; 5; 6] /\ int_users tex.
Proof.
  eexists; eexists. split; [vm_compute; reflexivity|]. split; [reflexivity|]. split; [reflexivity|apply tex_ok].
Qed.

(** *** C18 *)
Theorem C18_leave_ratio_out_exact : forall fmul sample a ratio m sched t train test,
  sample_ok sample -> int_users m -> (a_last a = true -> In (a_label a) (m_columns m)) ->
  a_k a = KRatio ratio ->
  leave_k_out fmul sample a m sched t = Done train test ->
  lko_spec (fun n => Qfloor (this (fmul n ratio))) (a_min a) m train test.
Proof.
  intros fmul sample a k m sched t train test Hs U Hl Hk H.
  assert (S := lko_correct fmul sample Hs a m U Hl sched t train test H). rewrite Hk in S. exact S.
Qed.
Print Assumptions C18_leave_ratio_out_exact.

Example C18_example : exists train test,
  leave_k_out exact_mul first_n (mkLko (KRatio (Q2Qc (1 # 2))) 0 false "timestamp" 0 2 true) tex turns 200 = Done train test /\
  map r_rid (rows_of test) = [0; 1; 2] /\ map r_rid (rows_of train) = [3; 4; 5; 6].
Proof.
  eexists; eexists. split; [vm_compute; reflexivity|]. split; reflexivity.
Qed.

(** *** C19 *)
Theorem C19_test_users_are_in_train : forall fmul sample a m sched t train test r,
  sample_ok sample -> int_users m -> (a_last a = true -> In (a_label a) (m_columns m)) ->
  leave_k_out fmul sample a m sched t = Done train test -> In r (rows_of test) ->
  exists r', In r' (rows_of train) /\ cell r' "user" = cell r "user".
Proof.
  intros fmul sample a m sched t train test r Hs U Hl H Hr.
  assert (S := lko_correct fmul sample Hs a m U Hl sched t train test H).
  assert (Hm : In r (rows_of m)).
  { destruct S as [(p & q & _ & -> & _) _]. simpl in Hr. apply filter_In in Hr. tauto. }
  destruct (int_user m r U Hm) as (z & Ez & _).
  assert (P : 0 < user_count z test).
  { unfold user_count. destruct (filter (user_is z) (rows_of test)) eqn:F; [|simpl; lia]. exfalso.
    assert (I : In r (filter (user_is z) (rows_of test))) by (apply filter_In; split; auto; apply user_is_iff; auto).
    rewrite F in I. destruct I. }
  apply (lko_test_users m _ _ train test z S) in P. unfold user_count in P.
  destruct (filter (user_is z) (rows_of train)) as [|r' l] eqn:F; [simpl in P; lia|].
  assert (I : In r' (filter (user_is z) (rows_of train))) by (rewrite F; simpl; auto).
  apply filter_In in I. destruct I as [I E]. apply user_is_iff in E. exists r'. split; auto. congruence.
Qed.
Print Assumptions C19_test_users_are_in_train.

Example C19_example : exists train test r, leave_k_out exact_mul first_n lko_ex tex turns 200 = Done train test /\
  In r (rows_of test) /\ cell r "user" = Some (VInt 5).
Proof. eexists; eexists; eexists. split; [vm_compute; reflexivity|]. split; [right; left; reflexivity|reflexivity]. Qed.

(** *** C20: false in general; true when the rows of each user are listed by time.
    Full statement: [test_is_latest] for every data set with a numeric timestamp
    column.  What is missing is true only of a different program: the code
    replaces the smallest heap entry by the current row even when the current row
    is older. *)
Definition last_ex := mkLko (KInt 1) 0 true "timestamp" 0 2 true.
Definition tex_down : mem := t_mem [t_row 0 7 1 30; t_row 1 7 2 20; t_row 2 7 3 10].
Theorem C20_latest_held_out_refuted : exists m train test,
  int_users m /\ col_type m "timestamp" = Ok DInt /\ fair 2 turns /\
  leave_k_out exact_mul first_n last_ex m turns 100 = Done train test /\
  ~ test_is_latest "timestamp" train test.
Proof.
  exists tex_down. eexists; eexists. split.
  { apply t_int_users; [simpl; repeat constructor; simpl; intuition discriminate|t_rows]. }
  split; [reflexivity|]. split; [apply turns_fair|]. split; [vm_compute; reflexivity|].
  intros L. specialize (L (t_row 2 7 3 10) (t_row 0 7 1 30) ltac:(simpl; auto) ltac:(simpl; auto) eq_refl).
  vm_compute in L. apply L. reflexivity.
Qed.
Print Assumptions C20_latest_held_out_refuted.

Theorem C20_latest_held_out_partial : forall fmul sample a m ty sched t train test,
  sample_ok sample -> int_users m -> a_last a = true -> In (a_label a) (m_columns m) ->
  col_type m (a_label a) = Ok ty -> ty <> DObj -> small_col m (a_label a) ->
  in_time_order (a_label a) m ->
  leave_k_out fmul sample a m sched t = Done train test ->
  test_is_latest (a_label a) train test.
Proof. intros. eapply lko_latest; eauto. Qed.
Print Assumptions C20_latest_held_out_partial.

Example C20_example : exists train test,
  leave_k_out exact_mul first_n last_ex tex turns 200 = Done train test /\
  map r_rid (rows_of test) = [5; 6] /\ in_time_order "timestamp" tex.
Proof.
  eexists; eexists. split; [vm_compute; reflexivity|]. split; [reflexivity|].
  intros p q r r' Hpq Hr Hr' E.
  assert (Hq : (q < 7)%nat) by (change 7%nat with (length (rows_of tex)); apply nth_error_Some; congruence).
  destruct q as [|[|[|[|[|[|[|q]]]]]]]; try lia; destruct p as [|[|[|[|[|[|p]]]]]]; try lia;
  simpl in Hr, Hr'; injection Hr as <-; injection Hr' as <-;
  try discriminate E; vm_compute; discriminate.
Qed.

(** *** C21: [matrix_spec] gives the two results exactly, for the drawn users and items *)
Theorem C21_matrix_split_exact : forall fmul sample_users sample_items a m ty sched t train test,
  sample_ok sample_users -> sample_ok sample_items -> int_users m ->
  In "item" (m_columns m) -> col_type m "item" = Ok ty -> small_col m "item" ->
  matrix_split fmul sample_users sample_items a m sched t = Done train test ->
  exists users items,
    drawn "user" m (Qfloor (this (fmul (Z.of_nat (n_distinct "user" m)) (b_uratio a)))) users /\
    drawn "item" m (Qfloor (this (fmul (Z.of_nat (n_distinct "item" m)) (b_iratio a)))) items /\
    matrix_spec (b_min a) users items m train test.
Proof. exact ms_correct. Qed.
Print Assumptions C21_matrix_split_exact.

Theorem C21_matrix_split_users_trainable : forall minimum users items m train test r,
  int_users m -> matrix_spec minimum users items m train test ->
  In r (rows_of test) -> exists r', In r' (rows_of train) /\ cell r' "user" = cell r "user".
Proof. exact ms_trainable. Qed.
Print Assumptions C21_matrix_split_users_trainable.

Definition ms_ex := mkMs (Q2Qc (2 # 3)) (Q2Qc (1 # 2)) 0 0 2 true.
Example C21_example : exists train test,
  matrix_split exact_mul first_n first_n ms_ex tex turns 300 = Done train test /\
  map r_rid (rows_of test) = [0; 1; 2] /\ map r_rid (rows_of train) = [3; 4; 5; 6] /\
  int_users tex /\ small_col tex "item".
Proof.
  eexists; eexists. split; [vm_compute; reflexivity|]. split; [reflexivity|]. split; [reflexivity|].
  split; [apply tex_ok|]. intros r z H E. simpl in H. unfold cell in E.
  intuition; subst; simpl in E; injection E as <-; vm_compute; discriminate.
Qed.

(** *** C22 *)
Theorem C22_leave_k_out_schedule_independent : forall fmul sample m a b s t s' t' train test train' test',
  same_lko a b ->
  leave_k_out fmul sample a m s t = Done train test ->
  leave_k_out fmul sample b m s' t' = Done train' test' ->
  train = train' /\ test = test'.
Proof. exact lko_deterministic. Qed.
Print Assumptions C22_leave_k_out_schedule_independent.

Theorem C22_matrix_split_schedule_independent : forall fmul su si m a b s t s' t' train test train' test',
  same_ms a b ->
  matrix_split fmul su si a m s t = Done train test ->
  matrix_split fmul su si b m s' t' = Done train' test' ->
  train = train' /\ test = test'.
Proof. exact ms_deterministic. Qed.
Print Assumptions C22_matrix_split_schedule_independent.

(** The test records of the i-th user are drawn by the generator seeded with
    seed + 1 + i, whatever the other users and the schedule. *)
Theorem C22_leave_k_out_user_sample : forall fmul sample a m sched t train test,
  sample_ok sample -> int_users m -> a_last a = false ->
  leave_k_out fmul sample a m sched t = Done train test ->
  exists us, NoDup us /\ (forall v, In v us <-> exists r, In r (rows_of m) /\ cell r "user" = Some v) /\
  forall i z, nth_error us i = Some (VInt z) ->
    let n := user_count z m in let k := lko_count fmul (a_k a) n in
    a_min a <= n -> 0 < k < n ->
    forall r, In r (rows_of m) -> cell r "user" = Some (VInt z) ->
      (In r (rows_of test) <->
       In (r_rid r) (sample (a_seed a + 1 + Z.of_nat i)
                            (map r_rid (filter (user_is z) (rows_of m))) (Z.to_nat k))).
Proof. exact lko_user_sample. Qed.
Print Assumptions C22_leave_k_out_user_sample.

(** two workers taking turns, and one worker that does everything *)
Definition single (t : nat) : option nat := if Nat.odd t then None else Some 0%nat.
Example C22_example : exists train test,
  leave_k_out exact_mul first_n lko_ex tex turns 200 = Done train test /\
  leave_k_out exact_mul first_n (mkLko (KInt 1) 2 false "timestamp" 0 1 false) tex single 200 = Done train test /\
  leave_k_out exact_mul first_n lko_ex tex turns 12 = Running /\
  same_lko lko_ex (mkLko (KInt 1) 2 false "timestamp" 0 1 false).
Proof.
  eexists; eexists. split; [vm_compute; reflexivity|]. split; [vm_compute; reflexivity|]. split; [vm_compute; reflexivity|].
  repeat split.
Qed.

(** *** C23: with text user ids every task fails and the progress loop never ends *)
Theorem C23_splits_return_refuted : exists m a ts,
  wf_mem m /\ lko_tasks exact_mul first_n a m = Ok ts /\
  forall sched t, leave_k_out exact_mul first_n a m sched t = Running.
Proof.
  exists ex_text, (mkLko (KInt 1) 0 false "timestamp" 0 4 true). eexists.
  split; [apply ex_text_wf|]. split; [vm_compute; reflexivity|]. intros sched t.
  unfold leave_k_out. cbn [a_threads a_verbose].
  replace (lko_tasks exact_mul first_n (mkLko (KInt 1) 0 false "timestamp" 0 4 true) ex_text)
    with (@Ok (list (list (section cellv))) [[]; []]) by (vm_compute; reflexivity).
  apply split_hangs.
  - intros t0 f [<-|[<-|[]]] [].
  - simpl. lia.
Qed.
Print Assumptions C23_splits_return_refuted.

Theorem C23_matrix_split_returns_refuted : exists m a ts,
  wf_mem m /\ ms_tasks exact_mul first_n first_n a m = Ok ts /\
  forall sched t, matrix_split exact_mul first_n first_n a m sched t = Running.
Proof.
  exists ex_text, (mkMs (Q2Qc (1 # 2)) (Q2Qc (1 # 2)) 0 0 4 true). eexists.
  split; [apply ex_text_wf|]. split; [vm_compute; reflexivity|]. intros sched t.
  unfold matrix_split. cbn [b_threads b_verbose].
  replace (ms_tasks exact_mul first_n first_n (mkMs (Q2Qc (1 # 2)) (Q2Qc (1 # 2)) 0 0 4 true) ex_text)
    with (@Ok (list (list (section cellv))) [[]; []]) by (vm_compute; reflexivity).
  apply split_hangs.
  - intros t0 f [<-|[<-|[]]] [].
  - simpl. lia.
Qed.
Print Assumptions C23_matrix_split_returns_refuted.

(** with integer user ids every fair schedule returns; with verbose=False every
    data set does.  Missing for the full statement: verbose=True with other ids. *)
Theorem C23_leave_k_out_returns_partial : forall fmul sample a m ts sched,
  int_users m -> (a_last a = true -> In (a_label a) (m_columns m)) ->
  lko_tasks fmul sample a m = Ok ts -> fair (a_threads a) sched ->
  exists t train test, leave_k_out fmul sample a m sched t = Done train test.
Proof. intros. eapply lko_returns; eauto. Qed.
Print Assumptions C23_leave_k_out_returns_partial.

Theorem C23_matrix_split_returns_partial : forall fmul su si a m ty ts sched,
  sample_ok su -> sample_ok si -> int_users m ->
  In "item" (m_columns m) -> col_type m "item" = Ok ty -> small_col m "item" ->
  ms_tasks fmul su si a m = Ok ts -> fair (b_threads a) sched ->
  exists t train test, matrix_split fmul su si a m sched t = Done train test.
Proof. exact ms_returns. Qed.
Print Assumptions C23_matrix_split_returns_partial.

Theorem C23_quiet_splits_return : forall fmul sample su si a b m ts ts' sched sched',
  (lko_tasks fmul sample a m = Ok ts -> a_verbose a = false -> fair (a_threads a) sched ->
   exists t train test, leave_k_out fmul sample a m sched t = Done train test) /\
  (ms_tasks fmul su si b m = Ok ts' -> b_verbose b = false -> fair (b_threads b) sched' ->
   exists t train test, matrix_split fmul su si b m sched' t = Done train test).
Proof.
  intros fmul sample su si a b m ts ts' sched sched'. split; intros E V F.
  - unfold leave_k_out. rewrite E, V. apply quiet_returns; auto. unfold lko_tasks in E.
    destruct (negb _); [discriminate|]. destruct (Nat.eqb (a_threads a) 0) eqn:E0; [discriminate|].
    apply Nat.eqb_neq in E0. exact E0.
  - unfold matrix_split. rewrite E, V. apply quiet_returns; auto. unfold ms_tasks, ms_samples in E.
    destruct (negb _); [discriminate|]. destruct (negb _); [discriminate|].
    destruct (Nat.eqb (b_threads b) 0) eqn:E0; [discriminate|]. apply Nat.eqb_neq in E0. exact E0.
Qed.
Print Assumptions C23_quiet_splits_return.

Example C23_example : exists ts, lko_tasks exact_mul first_n lko_ex tex = Ok ts /\ length ts = 3%nat /\
  a_verbose lko_ex = true /\ fair (a_threads lko_ex) turns /\
  lko_tasks exact_mul first_n (mkLko (KInt 1) 0 false "timestamp" 0 4 false) ex_text = Ok [[]; []].
Proof.
  eexists. split; [vm_compute; reflexivity|]. split; [reflexivity|]. split; [reflexivity|].
  split; [apply turns_fair|vm_compute; reflexivity].
Qed.

(** *** C24: [split_keeps] speaks about the object-level model, in which data sets
    share frames; [users] is the order in which the workers get to the users *)
Theorem C24_leave_k_out_keeps_source : forall fmul sample a m sched t train test m0 history i users,
  nth_error (views (hrun (w_init m0) history)) i = Some m ->
  leave_k_out fmul sample a m sched t = Done train test ->
  exists rem rids, split_keeps m0 history i (lko_calls users rem rids) train test.
Proof.
  intros fmul sample a m sched t train test m0 history i users E. unfold leave_k_out, run_split.
  destruct (lko_tasks fmul sample a m); [|discriminate]. destruct (w_main _); try discriminate.
  intros H. injection H as <- <-. eexists; eexists.
  match goal with |- context [drop m (?r ++ ?t) false] => destruct (lko_calls_split users r t) as (before & F & ->) end.
  apply keeps; auto.
Qed.
Print Assumptions C24_leave_k_out_keeps_source.

Theorem C24_matrix_split_keeps_source : forall fmul su si a m sched t train test m0 history i users,
  nth_error (views (hrun (w_init m0) history)) i = Some m ->
  matrix_split fmul su si a m sched t = Done train test ->
  exists rem rids, split_keeps m0 history i (ms_calls users rem rids) train test.
Proof.
  intros fmul su si a m sched t train test m0 history i users E. unfold matrix_split, run_split.
  destruct (ms_tasks fmul su si a m); [|discriminate]. destruct (w_main _); try discriminate.
  intros H. injection H as <- <-. eexists; eexists.
  match goal with |- context [drop m (?r ++ ?t) false] => destruct (ms_calls_split users r t) as (before & F & ->) end.
  apply keeps; auto.
Qed.
Print Assumptions C24_matrix_split_keeps_source.

Theorem C24_random_split_keeps_source : forall fmul sidx ratio seed m train test m0 history i,
  nth_error (views (hrun (w_init m0) history)) i = Some m ->
  random_split fmul sidx ratio seed m = Ok (train, test) ->
  exists rids, split_keeps m0 history i (rs_calls rids) train test.
Proof.
  intros fmul sidx ratio seed m train test m0 history i E. unfold random_split.
  destruct (negb _); [discriminate|]. destruct (negb _); [discriminate|]. destruct (Nat.eqb _ _); [discriminate|].
  destruct (rid_list m); cbn [bind]; [|discriminate]. intros H. injection H as <- <-. eexists.
  apply (keeps m0 history i m []); auto.
Qed.
Print Assumptions C24_random_split_keeps_source.

(** data set 1 is a copy of [tex] with internal ids; it is split, then the train
    set is modified in place *)
Example C24_example :
  let h := [(0%nat, HCopy); (1%nat, HAssign)] in
  let w := hrun (w_init tex) h in
  let w' := hrun w (map (pair 1%nat) (lko_calls [VInt 5; VInt 7; VInt 9] [3] [0; 1])) in
  let w'' := hrun w' [(7%nat, HDrop [2; 4] false false); (7%nat, HRemove)] in
  length (views w) = 2%nat /\ length (views w') = 8%nat /\
  option_map mem_len (nth_error (views w') 6) = Some 2%nat /\ option_map mem_len (nth_error (views w') 7) = Some 4%nat /\
  option_map mem_len (nth_error (views w'') 7) = Some 2%nat /\
  nth_error (views w'') 1 = nth_error (views w) 1.
Proof. vm_compute. repeat split. Qed.
