(** Proofs about the splits. *)
From Coq Require Import String Ascii.
From Coq Require Import List ZArith QArith Qcanon Qround Bool Lia Permutation Sorted.
From Verif Require Import Py PyFacts MemModel MemSpec MemFacts MemFacts2 MemFacts3 MemFacts4 MemFacts5 MemFacts6 MemFacts7
  Conc ConcFacts SplitModel SplitSpec.
Import ListNotations.
Open Scope string_scope.
Open Scope Z_scope.

(** ** Reading columns *)
Definition rec_of (t : dtype) (cs : list string) (r : row) : list value :=
  map (fun c => if String.eqb c "rid" then row_val_or c r else upcast t (row_val_or c r)) cs.

Lemma values_map m cs : wf_mem m -> (forall c, In c cs -> In c (m_columns m)) ->
  exists t, values m (Some cs) = Ok (map (rec_of t cs) (rows_of m)).
Proof.
  intros W Hc.
  destruct (col_types_ok m (df_columns (m_columns m)) W) as [ts T].
  { intros c H. apply filter_In in H. tauto. }
  exists (common_type ts). unfold values, handle_columns. rewrite (forallb_col_in m cs Hc). cbn [bind].
  rewrite T. cbn [bind]. apply mapM_Ok. intros r Hr. unfold row_record, rec_of. apply mapM_Ok. intros c Ic.
  destruct (col_type_ok m c W (Hc c Ic)) as [ty Ty].
  destruct (wf_row_val m c ty r W Ty Hr) as [v [E _]].
  rewrite (row_value_val c r v E). cbn [bind]. unfold row_val_or. rewrite E.
  destruct (String.eqb c "rid"); reflexivity.
Qed.

Lemma rid_list_ok m : wf_mem m -> rid_list m = Ok (map r_rid (rows_of m)).
Proof.
  intros W. unfold rid_list. destruct (values_map m ["rid"] W) as [t E].
  { intros c [<-|[]]. apply (wf_cols _ W). auto. }
  rewrite E. cbn [bind]. rewrite mapM_map. apply mapM_Ok. intros r _. reflexivity.
Qed.

Lemma stamps_ok m label : wf_mem m -> In label (m_columns m) ->
  exists t, stamps m label = Ok (map (fun r => (if String.eqb label "rid" then row_val_or label r
                                                else upcast t (row_val_or label r), r_rid r)) (rows_of m)).
Proof.
  intros W H. unfold stamps. destruct (values_map m ["rid"; label] W) as [t E].
  { intros c [<-|[<-|[]]]; auto. apply (wf_cols _ W). auto. }
  exists t. rewrite E. cbn [bind]. rewrite mapM_map. apply mapM_Ok. intros r _. reflexivity.
Qed.

Lemma rid_items_ok m : wf_mem m -> In "item" (m_columns m) ->
  exists t, rid_items m = Ok (map (fun r => (r_rid r, upcast t (row_val_or "item" r))) (rows_of m)).
Proof.
  intros W H. unfold rid_items. destruct (values_map m ["rid"; "item"] W) as [t E].
  { intros c [<-|[<-|[]]]; auto. apply (wf_cols _ W). auto. }
  exists t. rewrite E. cbn [bind]. rewrite mapM_map. apply mapM_Ok. intros r _. reflexivity.
Qed.

Lemma upcast_own t v : type_of v = t -> upcast (common_type [t]) v = v.
Proof. intros <-. destruct v; reflexivity. Qed.

Lemma distinct_values_ok m c t : wf_mem m -> c <> "rid" -> In c (m_columns m) -> col_type m c = Ok t ->
  exists vs, distinct_values m c = Ok vs /\ NoDup vs /\
    (forall v, In v vs <-> exists r, In r (rows_of m) /\ cell r c = Some v) /\
    (forall v, In v vs -> type_of v = t).
Proof.
  intros W N H T. unfold distinct_values.
  rewrite (unique_ok m [c]) by (auto; simpl; intuition congruence).
  cbn [bind]. set (u := set_columns _ _).
  assert (A := col_type_assoc m c t N T).
  assert (P : project_types [c] (f_types (m_df m)) = [(c, t)]) by (simpl; rewrite A; reflexivity).
  assert (Ec : String.eqb c "rid" = false) by (apply String.eqb_neq; auto).
  assert (TC : mapM (col_type u) (df_columns (m_columns u)) = Ok [t]).
  { subst u. unfold df_columns. cbn. rewrite Ec. cbn. unfold col_type. rewrite Ec. cbn. rewrite A. cbn.
    rewrite (String.eqb_refl c). reflexivity. }
  set (ds := drop_duplicates [c] (rows_of m)).
  assert (Hc : forall r, In r (rows_of m) -> exists v, cell r c = Some v /\ type_of v = t).
  { intros r Hr. apply (wf_cell m r c t W Hr A). }
  assert (Hd : forall r, In r ds -> In r (rows_of m)) by (intros; eapply drop_duplicates_incl; eauto).
  assert (V : values u (Some [c]) = Ok (map (fun r => [row_val_or c r]) ds)).
  { unfold values, handle_columns.
    assert (F : forallb (col_in u) [c] = true).
    { subst u. unfold col_in. cbn. rewrite String.eqb_refl. reflexivity. }
    rewrite F. cbn [bind]. rewrite TC. cbn [bind].
    change (rows_of u) with (map (project_row [c]) ds). rewrite mapM_map. apply mapM_Ok. intros r Hr.
    destruct (Hc r (Hd r Hr)) as [v [E Ty]]. unfold row_record. cbn [mapM].
    unfold row_value. rewrite Ec. rewrite project_cell by (first [left; reflexivity | constructor; [simpl; tauto|constructor]]).
    rewrite E. cbn [bind]. rewrite upcast_own by auto. unfold row_val_or, row_val. rewrite Ec, E. reflexivity. }
  rewrite V. cbn [bind]. rewrite mapM_map.
  exists (map (row_val_or c) ds). split; [apply mapM_Ok; reflexivity|].
  assert (RV : forall r v, cell r c = Some v -> row_val_or c r = v).
  { intros r v E. unfold row_val_or, row_val. rewrite Ec, E. reflexivity. }
  split; [|split].
  - assert (K := drop_duplicates_keys [c] (rows_of m)). fold ds in K.
    assert (ND : NoDup (map (row_key [c]) ds)) by (rewrite K; apply dedup_NoDup, reflects_key).
    clear - ND Hd Hc RV. revert Hd. induction ds as [|r ds IH]; simpl; intros Hd; [constructor|].
    inversion ND as [|? ? N1 N2]; subst. constructor; [|apply IH; auto].
    intros I. apply N1. apply in_map_iff in I. destruct I as [r' [E I]]. apply in_map_iff. exists r'. split; auto.
    unfold row_key; simpl.
    destruct (Hc r (Hd r (or_introl eq_refl))) as [v [E1 _]]. destruct (Hc r' (Hd r' (or_intror I))) as [v' [E2 _]].
    rewrite E1, E2. rewrite (RV _ _ E1), (RV _ _ E2) in E. congruence.
  - intros v. rewrite in_map_iff. split.
    + intros [r [E I]]. exists r. split; auto. destruct (Hc r (Hd r I)) as [v' [E1 _]].
      rewrite (RV _ _ E1) in E. congruence.
    + intros [r [I E]].
      assert (K : In (row_key [c] r) (map (row_key [c]) ds)).
      { unfold ds. rewrite (drop_duplicates_keys [c] (rows_of m)). apply dedup_In; [apply reflects_key|]. apply in_map. auto. }
      apply in_map_iff in K. destruct K as [r' [E' I']]. exists r'. split; auto.
      unfold row_key in E'. simpl in E'. rewrite E in E'. injection E' as E'. apply RV. exact E'.
  - intros v I. apply in_map_iff in I. destruct I as [r [<- I]]. destruct (Hc r (Hd r I)) as [v [E Ty]].
    rewrite (RV _ _ E). exact Ty.
Qed.

(** ** Results of the shared lists *)
Lemma extends_result fs xss a : Permutation fs (map extend xss) ->
  exists l, run_updates cellv fs (CList a) = CList l /\
            forall x, In x l <-> In x a \/ exists xs, In xs xss /\ In x xs.
Proof.
  intros P. destruct (Permutation_map_inv _ _ P) as (yss & E & Q). 
  assert (G : forall yss a, run_updates cellv (map extend yss) (CList a) = CList (a ++ concat yss)).
  { induction yss0 as [|ys yss0 IH]; intros b; simpl; [rewrite app_nil_r; reflexivity|].
    rewrite IH, <- app_assoc. reflexivity. }
  rewrite E, G. eexists. split; [reflexivity|]. intros x. rewrite in_app_iff, in_concat.
  split; (intros [H|[xs [H1 H2]]]; [left; auto|right; exists xs; split; auto]).
  - eapply Permutation_in; [apply Permutation_sym; exact Q|auto].
  - eapply Permutation_in; [exact Q|auto].
Qed.

Lemma incr_result fs n z : Permutation fs (repeat incr n) ->
  run_updates cellv fs (CNum z) = CNum (z + Z.of_nat n).
Proof.
  intros P. assert (L := Permutation_length P). rewrite repeat_length in L. subst n.
  assert (A : forall f, In f fs -> f = incr).
  { intros f H. eapply repeat_spec. eapply Permutation_in; eauto. }
  clear P. revert z. induction fs as [|f fs IH]; intros z.
  - simpl. f_equal. lia.
  - simpl. rewrite (A f) by (simpl; auto). simpl. rewrite IH by (intros; apply A; simpl; auto).
    f_equal. lia.
Qed.

Lemma flat_map_map {A B C} (f : A -> B) (g : B -> list C) l : flat_map g (map f l) = flat_map (fun x => g (f x)) l.
Proof. induction l; simpl; congruence. Qed.
Lemma map_flat_map {A B C} (f : B -> C) (g : A -> list B) l : map f (flat_map g l) = flat_map (fun x => map f (g x)) l.
Proof. induction l; simpl; auto. rewrite map_app. congruence. Qed.
Lemma flat_map_ext_in' {A B} (f g : A -> list B) l : (forall x, In x l -> f x = g x) -> flat_map f l = flat_map g l.
Proof. induction l; simpl; auto. intros H. rewrite H by auto. f_equal. auto. Qed.

(** what a finished run leaves in the three variables *)
Section Result.
Context {X : Type}.
Variables (us : list X) (task : X -> list (section cellv)).
Variables (rm tst : X -> list (list Z)).
Hypothesis Hrm : forall u, In u us -> updates cellv 0 (task u) = map extend (rm u).
Hypothesis Htst : forall u, In u us -> updates cellv 1 (task u) = map extend (tst u).

Lemma split_done threads verbose m sched t train test :
  run_split threads verbose m (Ok (map task us)) sched t = Done train test ->
  exists l0 l1, train = drop m (l0 ++ l1) false /\ test = drop m l1 true /\
    (forall x, In x l0 <-> exists u xs, In u us /\ In xs (rm u) /\ In x xs) /\
    (forall x, In x l1 <-> exists u xs, In u us /\ In xs (tst u) /\ In x xs).
Proof.
  unfold run_split. set (w0 := mkWorld _ _). set (en := enough _).
  destruct (w_main (wrun en sched t w0)) eqn:M; try discriminate.
  intros H. injection H as <- <-.
  assert (F : finished (w_pool (wrun en sched t w0)) = true).
  { apply returned_finished; auto. destruct verbose; discriminate. }
  assert (R := finished_result cellv en threads init_shared (map task us) _ sched t F).
  fold w0 in R.
  assert (G : forall l ys, (forall u, In u us -> updates cellv l (task u) = map extend (ys u)) -> init_shared l = CList [] ->
     exists xs, shared (w_pool (wrun en sched t w0)) l = CList xs /\
                forall x, In x xs <-> exists u zs, In u us /\ In zs (ys u) /\ In x zs).
  { intros l ys Hy Hi. destruct (R l) as (fs & E & P).
    rewrite flat_map_map in P. rewrite (flat_map_ext_in' _ _ _ Hy), <- map_flat_map in P.
    rewrite Hi in E. destruct (extends_result fs _ [] P) as (xs & E' & Q). exists xs. split; [congruence|].
    intros x. rewrite Q. split.
    - intros [[]|(zs & I & Ix)]. apply in_flat_map in I. destruct I as (u & Iu & Iz). eauto.
    - intros (u & zs & Iu & Iz & Ix). right. exists zs. split; auto. apply in_flat_map. eauto. }
  destruct (G 0%nat rm Hrm eq_refl) as (l0 & E0 & Q0). destruct (G 1%nat tst Htst eq_refl) as (l1 & E1 & Q1).
  exists l0, l1. unfold split_sets. rewrite E0, E1. auto.
Qed.

Hypothesis Hdone : forall u, In u us -> updates cellv 2 (task u) = [incr].

Lemma split_returns threads verbose m sched : threads <> 0%nat -> fair threads sched ->
  exists t train test, run_split threads verbose m (Ok (map task us)) sched t = Done train test.
Proof.
  intros Ht Hf. unfold run_split. set (en := enough _).
  destruct (fair_returns cellv en threads init_shared (map task us) (if verbose then Polling else Joining) sched Ht Hf) as [t E].
  - intros _ t F. destruct (finished_result cellv en threads init_shared (map task us) _ sched t F 2%nat) as (fs & E & P).
    rewrite flat_map_map in P. rewrite (flat_map_ext_in' _ (fun _ => [incr]) _ Hdone) in P.
    replace (flat_map (fun _ : X => [incr]) us) with (repeat incr (length us)) in P
      by (clear; induction us; simpl; congruence).
    unfold en at 1, enough at 1. rewrite E. simpl init_shared. rewrite (incr_result fs _ 0 P). simpl as_num.
    rewrite map_length. apply Z.leb_refl.
  - exists t. rewrite E. eauto.
Qed.
End Result.

(** a task that stops early keeps a verbose call waiting for ever *)
Lemma run_le_incr fs z : (forall f, In f fs -> f = incr) -> run_updates cellv fs (CNum z) = CNum (z + Z.of_nat (length fs)).
Proof.
  intros A. revert z. induction fs as [|f fs IH]; intros z.
  - simpl. f_equal. lia.
  - simpl. rewrite (A f) by (simpl; auto). simpl. rewrite IH by (intros; apply A; simpl; auto). f_equal. lia.
Qed.

Lemma split_hangs threads m ts sched :
  (forall t f, In t ts -> In f (updates cellv 2 t) -> f = incr) ->
  (length (flat_map (updates cellv 2) ts) < length ts)%nat ->
  forall t, run_split threads true m (Ok ts) sched t = Running.
Proof.
  intros A L t. unfold run_split. set (en := enough _).
  rewrite (never_returns cellv en threads init_shared ts Polling sched eq_refl); auto.
  clear t. intros t. destruct (i_perm _ _ _ _ (run_inv cellv en threads init_shared ts Polling sched t) 2%nat) as (fs & E & P).
  unfold en at 1, enough at 1. rewrite E. simpl init_shared.
  rewrite run_le_incr.
  - simpl as_num. apply Z.leb_gt. assert (Le := Permutation_length P). rewrite app_length in Le. simpl in Le. lia.
  - intros f Hf. assert (Hin : In f (flat_map (updates cellv 2) ts)).
    { eapply Permutation_in; [exact P|]. apply in_or_app; auto. }
    apply in_flat_map in Hin. destruct Hin as (u & Iu & If). eauto.
Qed.
