(** Proofs about the evaluation processes: sums, averages, the thread pool. *)
From Coq Require Import String Ascii.
From Coq Require Import List ZArith QArith Qcanon Reals Bool Lia Lra Permutation.
From Verif Require Import Py PyFacts MemModel MemSpec Conc ConcFacts SplitFacts EvalModel EvalSpec.
Import ListNotations.
Open Scope string_scope.
Open Scope Z_scope.

(** ** round *)
Lemma nearest_bounds y : (y - 1/2 <= IZR (nearest y) <= y + 1/2)%R.
Proof.
  unfold nearest. destruct (base_Int_part y) as [A B]. set (f := Int_part y) in *.
  destruct (Rlt_dec (y - IZR f) (1/2)); [lra|].
  destruct (Rlt_dec (1/2) (y - IZR f)); [rewrite plus_IZR; lra|].
  destruct (Z.even f); [lra|rewrite plus_IZR; lra].
Qed.
Lemma nearest_mono_Z y z : (IZR z <= y)%R -> z <= nearest y.
Proof.
  intros H. destruct (nearest_bounds y) as [A _].
  assert (L : (IZR z < IZR (nearest y) + 1)%R) by lra. rewrite <- plus_IZR in L. apply lt_IZR in L. lia.
Qed.
Lemma nearest_mono_Z' y z : (y <= IZR z)%R -> nearest y <= z.
Proof.
  intros H. destruct (nearest_bounds y) as [_ A].
  assert (L : (IZR (nearest y) < IZR z + 1)%R) by lra. rewrite <- plus_IZR in L. apply lt_IZR in L. lia.
Qed.
Lemma nearest_IZR z : nearest (IZR z) = z.
Proof. apply Z.le_antisymm; [apply nearest_mono_Z'|apply nearest_mono_Z]; lra. Qed.

Lemma round4_close x : (Rabs (round4 x - x) <= 1 / 20000)%R.
Proof.
  unfold round4. destruct (nearest_bounds (x * 10000)) as [A B]. apply Rabs_le. lra.
Qed.
Lemma round4_unit x : (0 <= x <= 1)%R -> (0 <= round4 x <= 1)%R.
Proof.
  intros H. unfold round4.
  assert (A : 0 <= nearest (x * 10000)) by (apply nearest_mono_Z; lra).
  assert (B : nearest (x * 10000) <= 10000) by (apply nearest_mono_Z'; lra).
  apply IZR_le in A. apply IZR_le in B. lra.
Qed.
(** a value with at most four decimals is not changed *)
Lemma round4_exact z : round4 (IZR z / 10000) = (IZR z / 10000)%R.
Proof. unfold round4. replace (IZR z / 10000 * 10000)%R with (IZR z) by field. rewrite nearest_IZR. reflexivity. Qed.

(** ** sums over the cases *)
Lemma reflects_key : reflects EvalModel.key_eqb.
Proof.
  intros [a x] [b y]. unfold EvalModel.key_eqb. cbn [fst snd]. rewrite andb_true_iff, String.eqb_eq, Z.eqb_eq.
  split; [intros [-> ->]; reflexivity|intros H; injection H as -> ->; auto].
Qed.

(** the values a case adds to a key *)
Definition adds (g : list (metric * Z)) (c : case) (x : mkey) : list R :=
  flat_map (fun p => if EvalModel.key_eqb x (mc_name (fst p), snd p)
                     then match mc_call (fst p) c (snd p) with Ok v => [v] | Err _ => [] end else []) g.
Definition bump_by (l : list R) (e : mkey * (R * Z)) : mkey * (R * Z) :=
  (fst e, ((fst (snd e) + sum l)%R, snd (snd e) + Z.of_nat (length l))).

Lemma sum_app a b : sum (a ++ b) = (sum a + sum b)%R.
Proof. induction a as [|x a IH]; simpl; [lra|]. rewrite IH. lra. Qed.

Lemma fold_add g c s : fold_left (add1 c) g s = map (fun e => bump_by (adds g c (fst e)) e) s.
Proof.
  revert s. induction g as [|p g IH]; intros s; cbn [fold_left].
  - rewrite <- (map_id s) at 1. apply map_ext. intros [x [v n]]. unfold bump_by, adds. cbn [flat_map fst snd length sum fold_right].
    rewrite Rplus_0_r, Z.add_0_r. reflexivity.
  - rewrite IH. unfold add1. destruct (mc_call (fst p) c (snd p)) as [v|e] eqn:E.
    + rewrite map_map. apply map_ext. intros [x [w n]]. cbn [fst snd].
      destruct (EvalModel.key_eqb x (mc_name (fst p), snd p)) eqn:K; cbn [fst snd];
        unfold bump_by, adds; cbn [flat_map fst snd]; rewrite K, ?E; cbn [app]; fold (adds g c x); [|reflexivity].
      cbn [sum fold_right length]. fold (sum (adds g c x)). f_equal. f_equal; [lra|lia].
    + apply map_ext. intros [x [w n]]. unfold bump_by, adds. cbn [flat_map fst snd].
      destruct (EvalModel.key_eqb x _); rewrite ?E; reflexivity.
Qed.

Lemma fold_cases ms ks cs s :
  fold_left (fun s c => add_case ms ks c s) cs s = map (fun e => bump_by (flat_map (fun c => adds (grid ms ks) c (fst e)) cs) e) s.
Proof.
  revert s. induction cs as [|c cs IH]; intros s; cbn [fold_left].
  - rewrite <- (map_id s) at 1. apply map_ext. intros [x [v n]]. unfold bump_by. cbn [flat_map fst snd length sum fold_right].
    rewrite Rplus_0_r, Z.add_0_r. reflexivity.
  - rewrite IH. unfold add_case. rewrite fold_add, map_map. apply map_ext. intros [x [v n]].
    unfold bump_by. cbn [fst snd flat_map]. rewrite sum_app, app_length. f_equal. f_equal; [lra|lia].
Qed.

Lemma sum_perm l l' : Permutation l l' -> sum l = sum l'.
Proof. induction 1; simpl; lra. Qed.
Lemma Permutation_flat_map {A B} (f : A -> list B) l l' : Permutation l l' -> Permutation (flat_map f l) (flat_map f l').
Proof.
  induction 1; cbn [flat_map]; auto.
  - apply Permutation_app_head; auto.
  - rewrite !app_assoc. apply Permutation_app_tail, Permutation_app_comm.
  - etransitivity; eauto.
Qed.

(** the results, as a function of the cases *)
Definition table (ms : list metric) (ks : list Z) (cs : list case) : list (mkey * R) :=
  map (fun x => (x, round4 (average (flat_map (fun c => adds (grid ms ks) c x) cs))))
      (dedup EvalModel.key_eqb (map (fun p => (mc_name (fst p), snd p)) (grid ms ks))).

Lemma round4_0 : round4 0 = 0%R.
Proof. replace 0%R with (IZR 0 / 10000)%R by lra. apply round4_exact. Qed.

Lemma results_table ms ks cs : results (fold_left (fun s c => add_case ms ks c s) cs (init_sums ms ks)) = table ms ks cs.
Proof.
  rewrite fold_cases. unfold results, init_sums, table. rewrite !map_map. apply map_ext. intros x. unfold bump_by. cbn [fst snd].
  f_equal. rewrite Rplus_0_l, Z.add_0_l. set (l := flat_map _ cs). unfold average. destruct l as [|v l].
  - cbn [length Z.of_nat]. rewrite Z.ltb_irrefl. symmetry. apply round4_0.
  - destruct (0 <? Z.of_nat (length (v :: l))) eqn:E; [|apply Z.ltb_ge in E; cbn [length] in E; lia].
    rewrite INR_IZR_INZ. reflexivity.
Qed.

Lemma table_perm ms ks cs cs' : Permutation cs cs' -> table ms ks cs = table ms ks cs'.
Proof.
  intros P. unfold table. apply map_ext. intros x. do 2 f_equal.
  assert (Q := Permutation_flat_map (fun c => adds (grid ms ks) c x) _ _ P). unfold average.
  assert (S := sum_perm _ _ Q). assert (L := Permutation_length Q).
  destruct (flat_map _ cs), (flat_map _ cs'); try discriminate; auto. rewrite S, L. reflexivity.
Qed.

(** ** runs *)
Definition block_of ms ks (x : res (option case)) : list (evar -> evar) :=
  map (fun c => on_sums (add_case ms ks c)) (evaluated_cases [x]).

Section Run.
Variables (ms : list metric) (ks : list Z) (task : res (option case) -> list (section evar)).
Hypothesis Hsum : forall x, updates evar 0 (task x) = block_of ms ks x.

Lemma sums_updates cs : forall s, run_updates evar (map (fun c => on_sums (add_case ms ks c)) cs) (ESums s) =
  ESums (fold_left (fun s c => add_case ms ks c s) cs s).
Proof. induction cs as [|c cs IH]; intros s; [reflexivity|]. simpl. apply IH. Qed.

Lemma perm_map_inv {A B} (f : A -> B) fs l : Permutation fs (map f l) -> exists l', fs = map f l' /\ Permutation l' l.
Proof. intros P. apply Permutation_map_inv in P. destruct P as [l' [E P]]. exists l'. split; auto. symmetry. auto. Qed.

Lemma evaluated_flat xs : flat_map (fun x => evaluated_cases [x]) xs = evaluated_cases xs.
Proof. unfold evaluated_cases. apply flat_map_ext. intros x. simpl. apply app_nil_r. Qed.

Lemma run_table threads verbose xs sched t r :
  run_eval threads verbose ms ks (Ok (map task xs)) sched t = EDone r -> r = table ms ks (evaluated_cases xs).
Proof.
  unfold run_eval. set (w0 := mkWorld _ _). set (en := all_done _).
  destruct (w_main (wrun en sched t w0)) eqn:M; try discriminate.
  destruct (shared (w_pool (wrun en sched t w0)) 0%nat) as [s|] eqn:Sh; try discriminate.
  intros H. injection H as <-.
  assert (F : finished (w_pool (wrun en sched t w0)) = true).
  { apply returned_finished; auto. destruct verbose; discriminate. }
  destruct (finished_result evar en threads (einit ms ks) (map task xs) _ sched t F 0%nat) as (fs & E & P).
  fold w0 in E. rewrite flat_map_map in P. rewrite (flat_map_ext _ _ Hsum) in P.
  unfold block_of in P. rewrite <- map_flat_map in P. rewrite evaluated_flat in P.
  destruct (perm_map_inv _ _ _ P) as [cs [-> Q]]. rewrite Sh in E. cbn [einit] in E. rewrite sums_updates in E.
  injection E as ->. rewrite results_table. apply table_perm. auto.
Qed.

Lemma bump_result fs n z : Permutation fs (repeat bump n) -> run_updates evar fs (ENum z) = ENum (z + Z.of_nat n).
Proof.
  intros P. assert (A : forall f, In f fs -> f = bump).
  { intros f Hf. apply (Permutation_in _ P) in Hf. apply repeat_spec in Hf. auto. }
  assert (L := Permutation_length P). rewrite repeat_length in L. clear P. subst n. revert z.
  induction fs as [|f fs IH]; intros z.
  - simpl. f_equal. lia.
  - simpl. rewrite (A f) by (simpl; auto). simpl. rewrite IH by (intros; apply A; simpl; auto). f_equal. lia.
Qed.

Lemma sums_stay cs s : exists s', run_updates evar (map (fun c => on_sums (add_case ms ks c)) cs) (ESums s) = ESums s'.
Proof. rewrite sums_updates. eauto. Qed.

Lemma run_returns threads verbose xs sched : threads <> 0%nat -> fair threads sched ->
  (verbose = true -> forall x, In x xs -> updates evar 1 (task x) = [bump]) ->
  exists t, run_eval threads verbose ms ks (Ok (map task xs)) sched t = EDone (table ms ks (evaluated_cases xs)).
Proof.
  intros Ht Hf Hd. 
  destruct (fair_returns evar (all_done (length (map task xs))) threads (einit ms ks) (map task xs) (if verbose then Polling else Joining) sched Ht Hf) as [t E].
  - intros V t F. destruct verbose; [|discriminate]. specialize (Hd eq_refl).
    destruct (finished_result evar _ threads (einit ms ks) (map task xs) _ sched t F 1%nat) as (fs & E & P).
    rewrite flat_map_map in P. rewrite (flat_map_ext_in' _ (fun _ => [bump]) _ Hd) in P.
    replace (flat_map (fun _ : res (option case) => [bump]) xs) with (repeat bump (length xs)) in P
      by (clear; induction xs; simpl; congruence).
    unfold all_done at 1. rewrite E. cbn [einit]. rewrite (bump_result fs _ 0 P).
    rewrite map_length. apply Z.leb_refl.
  - exists t. assert (D : exists r, run_eval threads verbose ms ks (Ok (map task xs)) sched t = EDone r).
    { unfold run_eval. rewrite E.
      set (w0 := mkWorld _ _). set (en := all_done _).
      assert (F : finished (w_pool (wrun en sched t w0)) = true).
      { apply returned_finished; auto. destruct verbose; discriminate. }
      destruct (finished_result evar en threads (einit ms ks) (map task xs) _ sched t F 0%nat) as (fs & E' & P).
      fold w0 in E'. rewrite flat_map_map in P. rewrite (flat_map_ext _ _ Hsum) in P.
      unfold block_of in P. rewrite <- map_flat_map in P.
      destruct (perm_map_inv _ _ _ P) as [cs [-> Q]]. cbn [einit] in E'. rewrite sums_updates in E'. rewrite E'. eauto. }
    destruct D as [r D]. rewrite D. f_equal. eapply run_table; eauto.
Qed.

(** a task that is not counted keeps a verbose call waiting *)
Lemma run_le_bump fs z : (forall f, In f fs -> f = bump) -> run_updates evar fs (ENum z) = ENum (z + Z.of_nat (length fs)).
Proof.
  intros A. revert z. induction fs as [|f fs IH]; intros z.
  - simpl. f_equal. lia.
  - simpl. rewrite (A f) by (simpl; auto). simpl. rewrite IH by (intros; apply A; simpl; auto). f_equal. lia.
Qed.
Lemma run_hangs threads xs sched :
  (forall x f, In x xs -> In f (updates evar 1 (task x)) -> f = bump) ->
  (length (flat_map (fun x => updates evar 1 (task x)) xs) < length xs)%nat ->
  forall t, run_eval threads true ms ks (Ok (map task xs)) sched t = ERunning.
Proof.
  intros A L t. unfold run_eval. set (en := all_done _).
  rewrite (never_returns evar en threads (einit ms ks) (map task xs) Polling sched eq_refl); auto.
  clear t. intros t. destruct (i_perm _ _ _ _ (run_inv evar en threads (einit ms ks) (map task xs) Polling sched t) 1%nat) as (fs & E & P).
  unfold en at 1, all_done at 1. rewrite E. cbn [einit]. rewrite flat_map_map in P.
  rewrite run_le_bump.
  - apply Z.leb_gt. assert (Le := Permutation_length P). rewrite app_length in Le. rewrite map_length. lia.
  - intros f Hf. assert (Hin : In f (flat_map (fun x => updates evar 1 (task x)) xs)).
    { eapply Permutation_in; [exact P|]. apply in_or_app; auto. }
    apply in_flat_map in Hin. destruct Hin as (u & Iu & If). eauto.
Qed.
End Run.

(** ** reading the table *)
Lemma grid_In m k ms ks : In (m, k) (grid ms ks) <-> In m ms /\ In k ks.
Proof.
  unfold grid. rewrite in_flat_map. split.
  - intros (m' & Hm & H). apply in_map_iff in H. destruct H as (k' & E & Hk). injection E as -> ->. auto.
  - intros [Hm Hk]. exists m. split; auto. apply in_map_iff. eauto.
Qed.

Lemma adds_none m ks c k : ~ In k ks -> flat_map (fun p : metric * Z => if EvalModel.key_eqb (mc_name m, k) (mc_name (fst p), snd p)
   then match mc_call (fst p) c (snd p) with Ok v => [v] | Err _ => [] end else []) (map (fun k => (m, k)) ks) = [].
Proof.
  induction ks as [|k' ks IH]; intros N; cbn [map flat_map fst snd]; auto.
  unfold EvalModel.key_eqb at 1. cbn [fst snd]. destruct (Z.eqb_spec k k'); [subst; exfalso; apply N; simpl; auto|].
  rewrite andb_false_r. apply IH. intros H. apply N. simpl; auto.
Qed.

Lemma adds_distinct ms ks m k c : NoDup (map mc_name ms) -> NoDup ks -> In m ms -> In k ks ->
  adds (grid ms ks) c (mc_name m, k) = match mc_call m c k with Ok v => [v] | Err _ => [] end.
Proof.
  intros N1 N2 Hm Hk. unfold adds, grid. rewrite flat_map_concat_map.
  induction ms as [|m' ms IH]; [destruct Hm|]. cbn [map flat_map]. rewrite map_app, concat_app, <- !flat_map_concat_map.
  cbn [map] in N1. inversion N1 as [|? ? X Y]; subst. rewrite flat_map_concat_map in IH. destruct Hm as [->|Hm].
  - rewrite (flat_map_concat_map _ (flat_map _ ms)).
    assert (E : concat (map (fun p : metric * Z => if EvalModel.key_eqb (mc_name m, k) (mc_name (fst p), snd p)
              then match mc_call (fst p) c (snd p) with Ok v => [v] | Err _ => [] end else []) (flat_map (fun m => map (fun k => (m, k)) ks) ms)) = []).
    { rewrite <- flat_map_concat_map. fold (grid ms ks). assert (G : forall p, In p (grid ms ks) -> EvalModel.key_eqb (mc_name m, k) (mc_name (fst p), snd p) = false).
      { intros [m' k'] Hp. apply grid_In in Hp. unfold EvalModel.key_eqb. cbn [fst snd].
        destruct (String.eqb_spec (mc_name m) (mc_name m')); auto. exfalso. apply X. rewrite e. apply in_map. tauto. }
      induction (grid ms ks) as [|p l IHl]; cbn [flat_map]; auto. rewrite (G p) by (simpl; auto). apply IHl. intros; apply G; simpl; auto. }
    rewrite E, app_nil_r. clear - N2 Hk.
    induction ks as [|k' ks IH]; [destruct Hk|]. cbn [map flat_map fst snd]. inversion N2; subst.
    unfold EvalModel.key_eqb at 1. cbn [fst snd]. rewrite String.eqb_refl. cbn [andb].
    destruct (Z.eqb_spec k k').
    + subst. rewrite adds_none by auto. apply app_nil_r.
    + apply IH; auto. destruct Hk; congruence.
  - rewrite (flat_map_concat_map _ (flat_map _ ms)). rewrite <- (flat_map_concat_map _ (flat_map _ ms)).
    assert (E : flat_map (fun p : metric * Z => if EvalModel.key_eqb (mc_name m, k) (mc_name (fst p), snd p)
              then match mc_call (fst p) c (snd p) with Ok v => [v] | Err _ => [] end else []) (map (fun k => (m', k)) ks) = []).
    { assert (G : forall p, In p (map (fun k => (m', k)) ks) -> EvalModel.key_eqb (mc_name m, k) (mc_name (fst p), snd p) = false).
      { intros p Hp. apply in_map_iff in Hp. destruct Hp as (k' & <- & _). unfold EvalModel.key_eqb. cbn [fst snd].
        destruct (String.eqb_spec (mc_name m) (mc_name m')); auto. exfalso. apply X. rewrite <- e. apply in_map. auto. }
      induction (map (fun k => (m', k)) ks) as [|p l IHl]; cbn [flat_map]; auto. rewrite (G p) by (simpl; auto). apply IHl. intros; apply G; simpl; auto. }
    rewrite E. cbn [app]. rewrite !flat_map_concat_map. apply IH; auto.
Qed.

Lemma table_value ms ks cs m k : NoDup (map mc_name ms) -> NoDup ks -> In m ms -> In k ks ->
  In ((mc_name m, k), round4 (average (metric_values m k cs))) (table ms ks cs).
Proof.
  intros N1 N2 Hm Hk. unfold table. apply in_map_iff. exists (mc_name m, k). split.
  - do 3 f_equal. unfold metric_values. apply flat_map_ext. intros c. apply adds_distinct; auto.
  - apply dedup_In; [apply reflects_key|]. apply in_map_iff. exists (m, k). split; auto. apply grid_In. auto.
Qed.

Lemma table_keys ms ks cs x v : In (x, v) (table ms ks cs) -> exists m, In m ms /\ fst x = mc_name m /\ In (snd x) ks.
Proof.
  intros H. unfold table in H. apply in_map_iff in H. destruct H as (y & E & H). injection E as -> _.
  apply dedup_In in H; [|apply reflects_key]. apply in_map_iff in H. destruct H as ([m k] & <- & H).
  apply grid_In in H. exists m. cbn. tauto.
Qed.
Lemma table_nodup ms ks cs : NoDup (map fst (table ms ks cs)).
Proof. unfold table. rewrite map_map. cbn [fst]. rewrite map_id. apply dedup_NoDup, reflects_key. Qed.

Lemma sum_unit l : Forall (fun v => 0 <= v <= 1)%R l -> (0 <= sum l <= INR (length l))%R.
Proof. induction 1 as [|v l H _ IH]; cbn [sum fold_right length]; [simpl; lra|]. rewrite S_INR. fold (sum l). lra. Qed.
Lemma average_unit l : Forall (fun v => 0 <= v <= 1)%R l -> (0 <= average l <= 1)%R.
Proof.
  intros F. apply sum_unit in F. unfold average. destruct l as [|v l]; [lra|].
  assert (P : (0 < INR (length (v :: l)))%R) by (apply lt_0_INR; simpl; lia). set (n := INR _) in *.
  split.
  - apply Rmult_le_pos; [tauto|]. apply Rlt_le, Rinv_0_lt_compat; auto.
  - apply (Rmult_le_reg_r n); auto. unfold Rdiv. rewrite Rmult_assoc, Rinv_l, Rmult_1_r, Rmult_1_l by lra. tauto.
Qed.

Lemma table_unit ms ks cs : (forall m c k v, In m ms -> In c cs -> In k ks -> mc_call m c k = Ok v -> (0 <= v <= 1)%R) ->
  forall x v, In (x, v) (table ms ks cs) -> (0 <= v <= 1)%R.
Proof.
  intros U x v H. unfold table in H. apply in_map_iff in H. destruct H as (y & E & H). injection E as -> <-.
  apply round4_unit, average_unit. apply Forall_forall. intros w Hw. apply in_flat_map in Hw. destruct Hw as (c & Hc & Hw).
  unfold adds in Hw. apply in_flat_map in Hw. destruct Hw as ([m k] & Hp & Hw). apply grid_In in Hp. cbn [fst snd] in Hw.
  destruct (EvalModel.key_eqb x (mc_name m, k)); [|destruct Hw]. destruct (mc_call m c k) eqn:E; [|destruct Hw].
  destruct Hw as [<-|[]]. apply (U m c k); tauto.
Qed.
